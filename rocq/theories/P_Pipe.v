(** * C76: pipelines of parallelized commands *)
From Coq Require Import Lia.
Require Import Verif.PyBase Verif.JsonData Verif.Parser Verif.Access Verif.IOInfo Verif.IOVars
  Verif.Transformers Verif.ParaTypes Verif.ParaGen Verif.MapperAgg Verif.SpecLists Verif.SpecIO Verif.SpecVars Verif.SpecPara
  Verif.ParserFacts Verif.ParaProps Verif.ShippedData Verif.MapperFacts Verif.P_Para Verif.SpecSem Verif.SemFacts Verif.SemRun Verif.SemProps
  Verif.SemSystem Verif.P_Sem Verif.SpecSem2 Verif.SemProps2 Verif.P_Sem2 Verif.SpecSem4 Verif.SemProps4 Verif.SpecSem6 Verif.P_Sem6 Verif.SpecPipe Verif.PipeFacts.

(** ** Stage by stage
    Sound stages compose: whatever the plans and the cuts, a pipeline of any length run stage by
    stage in parallel gives what the sequential pipeline gives, and such runs exist. *)
Theorem C76_staged_iff : forall B dir s l x z, Forall (plain B dir) l -> within B s l x ->
  (staged B dir s l x z <-> sequential B s l x z).
Proof. intros B dir s l x z P W. now apply staged_iff. Qed.
Print Assumptions C76_staged_iff.

(** ** Side by side
    A part that goes through all the mappers is treated as the pipeline treats it. *)
Theorem C76_branch_iff : forall B dir s l x z, Forall (concatenated B dir) l ->
  (branch B s l x z <-> sequential B s l x z).
Proof.
  intros B dir s l x z C. apply branch_seq. eapply Forall_impl; [|exact C]. intros h H. pose proof (concatenated_mapped B dir h H) as M.
  destruct H as (_ & _ & (R & T & _) & _). auto.
Qed.
Print Assumptions C76_branch_iff.
(** If all the stages but the last concatenate and keep the ends of lines, combining may wait
    until after the last stage, which may be combined in any sound way. *)
Theorem C76_fused_iff : forall B dir s front g t x pieces r,
  Forall (concatenated B dir) front -> Forall (keeps_lines B s) front -> plain B dir g -> is_cat B ->
  fresh_plan (st_civ g) t -> arity (st_arity g) t -> pieces <> [] -> length (parts t) = length pieces ->
  cut_at_lines x pieces -> within B s (front ++ [g]) x ->
  (fused B dir s front g t pieces r <-> sequential B s (front ++ [g]) x r).
Proof. intros. now apply fused_iff. Qed.
Print Assumptions C76_fused_iff.

(** ** Which commands keep the ends of lines *)
Theorem C76_lines : forall B dir g, line_stage B g -> is_cat B -> concatenated B dir g /\ forall s, keeps_lines B s g.
Proof.
  intros B dir g L CB. destruct L as [text inv o P C O IN R T U HB A D|text inv o P C O IN R T U HB A D|text inv o st ops sc P C O IN R T OPS RS LL U HB A D].
  - assert (S : In (st_par g) (stateless SpecPara.concat)) by (eapply stateless_of; eauto; rewrite C; now left).
    split.
    + split; [eauto|]. split; [destruct S as [<-|[<-|[]]]; reflexivity|]. split; [|split; [exact A|rewrite D; intros ? ? _ _; exact I]].
      split; [exact R|]. split; [exact T|]. split; [destruct S as [<-|[<-|[]]]; discriminate|]. unfold sound. rewrite A, D. eapply cut_sound; eauto.
    + intros s seed a b EA _. rewrite (out_words B s g seed a R). pose proof IN as (CN & NM). rewrite CN, C, HB.
      * unfold wise_output. rewrite (given_unused inv (st_civ g) s ["--help"; "--version"]), (given_unused inv (st_civ g) s ["-z"]);
          [apply terminated_ends|exact IN|eapply unused_sub; [exact U|]|exact IN|eapply unused_sub; [exact U|]]; intros y; cbn; tauto.
      * eapply parse_known; eauto; [rewrite C; left; vm_compute; reflexivity|vm_compute; reflexivity].
  - assert (S : In (st_par g) (stateless SpecPara.concat)) by (eapply stateless_of; eauto; rewrite C; cbn; auto).
    split.
    + split; [eauto|]. split; [destruct S as [<-|[<-|[]]]; reflexivity|]. split; [|split; [exact A|rewrite D]].
      * split; [exact R|]. split; [exact T|]. split; [destruct S as [<-|[<-|[]]]; discriminate|]. unfold sound. rewrite A, D. eapply grep_sound; eauto.
      * intros a b _ [H|H]; [left|now right]. unfold is_text in *. rewrite has_char_app in H. now apply orb_false_iff in H.
    + intros s seed a b EA Q. rewrite D in Q. destruct (grep_prints text inv (st_par g) (st_civ g) (st_in g) B o P C O IN R U HB s) as (F & E).
      rewrite (out_words B s g seed a R), E; [apply unlines_ends|].
      destruct Q as [Q|Q]; [left|now right]. unfold is_text in *. rewrite has_char_app in Q. now apply orb_false_iff in Q.
  - assert (S : In (st_par g) (stateless SpecPara.concat)) by (eapply stateless_of; eauto; rewrite C; cbn; auto).
    split.
    + split; [eauto|]. split; [destruct S as [<-|[<-|[]]]; reflexivity|]. split; [|split; [exact A|rewrite D; intros ? ? _ _; exact I]].
      split; [exact R|]. split; [exact T|]. split; [destruct S as [<-|[<-|[]]]; discriminate|]. unfold sound. rewrite A, D. eapply sed_sound; eauto.
    + intros s seed a b EA _.
      assert (GU : forall l, incl l ["-e"; "-f"; "--in-place"; "--debug"; "--posix"; "-z"; "--help"; "--version"] ->
        given (map (wflag_of (st_civ g) s) (v_flags (st_civ g))) l = false).
      { intros l I. apply (given_unused inv); [exact IN|]. eapply unused_sub; eauto. }
      rewrite (out_words B s g seed a R). pose proof IN as (CN & NM). rewrite CN, C, OPS. cbn [map word_of]. rewrite (HB _ _ _ _ _ sc).
      * apply sed_ends; [apply GU; intros y; cbn; tauto|apply GU; intros y; cbn; tauto|exact EA].
      * eapply parse_known; eauto; [rewrite C; left; vm_compute; reflexivity|vm_compute; reflexivity].
      * apply GU; intros y; cbn; tauto.
      * exact RS.
Qed.
Print Assumptions C76_lines.
(** ... so pipelines of these commands of any length can be run side by side, with any last
    stage that is sound. *)
Theorem C76_fused_lines : forall B dir s front g t x pieces r,
  Forall (line_stage B) front -> plain B dir g -> is_cat B ->
  fresh_plan (st_civ g) t -> arity (st_arity g) t -> pieces <> [] -> length (parts t) = length pieces ->
  cut_at_lines x pieces -> within B s (front ++ [g]) x ->
  (fused B dir s front g t pieces r <-> sequential B s (front ++ [g]) x r).
Proof.
  intros B dir s front g t x pieces r L P CB F A NE LP CU W. apply C76_fused_iff; auto.
  - eapply Forall_impl; [|exact L]. intros h H. now apply C76_lines.
  - eapply Forall_impl; [|exact L]. intros h H. now apply (C76_lines B dir).
Qed.
Print Assumptions C76_fused_lines.
(** tr, exactly *)
Theorem C76_tr_keeps_iff : forall text inv B o s g,
  parse shipped_dir text = Ok inv -> cmd_name inv = "tr" -> invocation_of inv (st_civ g) -> reads_one (st_civ g) (st_in g) ->
  ~ uses_any inv ["--help"; "--version"] -> is_tr o B -> st_domain g = (fun _ => True) ->
  (keeps_lines B s g <-> tr_keeps o (map (wflag_of (st_civ g) s) (v_flags (st_civ g))) (map (word_of (st_civ g) s) (v_ops (st_civ g)))).
Proof.
  intros text inv B o s g P C IN R U HB D.
  assert (KN : known tr_names (map (wflag_of (st_civ g) s) (v_flags (st_civ g)))).
  { eapply parse_known; eauto; [rewrite C; left; vm_compute; reflexivity|vm_compute; reflexivity]. }
  rewrite tr_keeps_ends by (apply (given_unused inv); auto). pose proof IN as (CN & _).
  assert (E : forall seed a, out B s g seed a = tr_output o (map (wflag_of (st_civ g) s) (v_flags (st_civ g))) (map (word_of (st_civ g) s) (v_ops (st_civ g))) a).
  { intros seed a. rewrite (out_words B s g seed a R), CN, C. now apply HB. }
  split.
  - intros K a EA. rewrite <- (E 0). apply (K 0 a "" EA). now rewrite D.
  - intros H seed a b EA _. rewrite E. auto.
Qed.
Print Assumptions C76_tr_keeps_iff.

Lemma seq_two B s g h x r : sequential B s [g; h] x r -> exists sd sd', r = out B s h sd' (out B s g sd x).
Proof. intros S. inversion S as [|? ? ? ? sd S1]; subst. inversion S1 as [|? ? ? ? sd' S2]; subst. inversion S2; subst. eauto. Qed.
(** ** It is needed
    Without it, running side by side prints what the whole pipeline prints for each part, one
    after the other. *)
Theorem C76_fused_joined : forall B dir s front h t pieces zs,
  Forall (concatenated B dir) front -> concatenated B dir h -> is_cat B ->
  (forall seed x, out B s h seed x = out B s h 0 x) ->
  fresh_plan (st_civ h) t -> arity (st_arity h) t -> length (parts t) = length pieces ->
  Forall2 (sequential B s (front ++ [h])) pieces zs ->
  fused B dir s front h t pieces (joined zs).
Proof.
  intros B dir s front h t pieces zs Cf Ch CB ONE FR AR LP S.
  assert (Y : exists ys, Forall2 (branch B s front) pieces ys /\ zs = map (out B s h 0) ys).
  { clear LP. induction S as [|a z l l' H _ (ys & Y & E)]; [exists []; split; [constructor|reflexivity]|].
    apply seq_split in H as (y & H1 & H2). exists (y :: ys). split; [constructor; [now apply (C76_branch_iff B dir)|exact Y]|].
    inversion H2 as [|? ? ? ? sd H3]; subst. inversion H3; subst. cbn. now rewrite ONE. }
  destruct Y as (ys & Y & ->).
  assert (LY : length pieces = length ys) by (clear -Y; induction Y; cbn; congruence).
  exists ys, (connect (parts t) ys (put (st_in h) (joined ys) s)).
  pose proof Ch as (_ & AG & (R & T & _) & AH & _). destruct (concatenated_mapped B dir h Ch) as (M1 & M2).
  assert (PM : map (connect (parts t) ys (put (st_in h) (joined ys) s)) (parts t) = ys).
  { apply connect_in; [apply parts_nodup, FR|congruence]. }
  split; [exact Y|split; [exact PM|split]].
  - intros v N. apply connect_out. intros J. apply N. now apply parts_in.
  - set (s' := connect (parts t) ys (put (st_in h) (joined ys) s)) in *.
    replace (joined (map (out B s h 0) ys)) with (joined (map (fun v => out B s h 0 (s' v)) (parts t))).
    + apply (concat_plan B dir _ _ (st_in h) s' (out B s h 0) R M1 M2 AG CB t FR); [now rewrite <- AH|].
      intros seed v I. rewrite <- (ONE seed (s' v)), (out_words B s h seed (s' v) R).
      destruct (words_only (st_civ h) (st_in h) s' s R) as (-> & ->); [|reflexivity].
      intros u J N. unfold s'. rewrite connect_out.
      * unfold put. destruct (Z.eqb_spec u (st_in h)); [contradiction|reflexivity].
      * intros K. apply parts_in in K. apply FR in K as (_ & K). contradiction.
    + now rewrite <- (map_map s' (out B s h 0)), PM.
Qed.
Print Assumptions C76_fused_joined.
(** If a stage breaks an end of line then running it side by side with a stage that prints a
    line for every line gives what the sequential pipeline never gives, although both are sound alone. *)
Theorem C76_needed : forall B dir s g h t a,
  concatenated B dir g -> concatenated B dir h -> is_cat B -> line_for_line B s h ->
  (forall x, st_domain g x) -> ends_line a -> ~ ends_line (out B s g 0 a) ->
  fresh_plan (st_civ h) t -> arity (st_arity h) t -> length (parts t) = 2 ->
  cut_at_lines (a +++ a) [a; a] /\ exists r, fused B dir s [g] h t [a; a] r /\ ~ sequential B s [g; h] (a +++ a) r.
Proof.
  intros B dir s g h t a Cg Ch CB (F & CF & M) Dg EA NE FR AR LP.
  split; [split; [cbn; now rewrite append_nil|apply (Forall_cons a EA), Forall_nil]|].
  set (y := out B s g 0 a) in *. set (m := fun x => unlines (map F (lines x))).
  exists (joined [m y; m y]). split.
  - apply C76_fused_joined; auto.
    + intros seed x. now rewrite !M.
    + assert (X : sequential B s [g; h] a (m y)).
      { apply (seq_cons B s g [h] a _ 0). fold y. replace (m y) with (out B s h 0 y) by apply M. apply (seq_cons B s h [] y _ 0). constructor. }
      constructor; [exact X|]. constructor; [exact X|constructor].
  - cbn [joined fold_right]. rewrite append_nil. intros S. apply seq_two in S as (sd & sd' & EQ). symmetry in EQ.
    rewrite M, (concatenated_step B dir s g Cg CB a a sd 0 0 EA (Dg _)) in EQ. fold y in EQ. fold (m (y +++ y)) in EQ.
    assert (NY : y <> "") by (intros E; apply NE; rewrite E; now left).
    assert (L1 : length (lines (m (y +++ y))) = length (lines (y +++ y))) by now apply mapped_lines.
    assert (L2 : length (lines (m y +++ m y)) = length (lines y) + length (lines y)).
    { unfold lines at 1. rewrite records_app by apply unlines_ends. rewrite app_length. f_equal; now apply mapped_lines. }
    pose proof (lines_glued y y NE NY) as L3. rewrite EQ in L1. lia.
Qed.
Print Assumptions C76_needed.


(** ** Cases *)
Definition grep_inv : invocation := mkInv "grep" [Flag "-v"] ["b"].
Definition grep_stage : stage := mkStage (filter_civ "grep" [FFlag "-v"] [PArg "b"]) 1 (chunks SpecPara.concat) (fun n => n <> 0)
  (fun x => is_text x \/ uses grep_inv "-a").
Definition cut_stage : stage := mkStage (filter_civ "cut" [FOptIO "-c" (PArg "1")] []) 1 (round_robin SpecPara.concat) (fun n => n <> 0) (fun _ => True).
Definition sort_stage : stage := mkStage (filter_civ "sort" [FFlag "-r"] []) 1 (chunks sort_merge) (fun n => n = 2) (fun _ => True).
Definition tr_stage : stage := mkStage (filter_civ "tr" [] [PArg "\n"; PArg " "]) 1 (chunks SpecPara.concat) (fun n => n <> 0) (fun _ => True).
Lemma cut_stage_ok : line_stage simple_system cut_stage.
Proof.
  eapply (ls_cut simple_system cut_stage "cut -c 1" (mkInv "cut" [Option_ "-c" "1"] [])).
  - vm_compute; reflexivity.
  - reflexivity.
  - eapply offered_first; [vm_compute; reflexivity|right; now left].
  - split; reflexivity.
  - now apply filter_civ_reads.
  - now apply filter_civ_tight.
  - intros (n & I & U). apply uses_in in U. cbn in I, U. intuition subst; discriminate.
  - exact simple_is_cut.
  - reflexivity.
  - reflexivity.
Qed.
Lemma grep_stage_ok : line_stage simple_system grep_stage.
Proof.
  eapply (ls_grep simple_system grep_stage "grep -v b" grep_inv).
  - vm_compute; reflexivity.
  - reflexivity.
  - eapply offered_first; [vm_compute; reflexivity|now left].
  - split; reflexivity.
  - now apply filter_civ_reads.
  - now apply filter_civ_tight.
  - intros (n & I & U). apply uses_in in U. cbn in I, U. intuition subst; discriminate.
  - exact simple_is_grep.
  - reflexivity.
  - reflexivity.
Qed.
Lemma sort_stage_ok : plain simple_system shipped_dir sort_stage.
Proof.
  split; [now apply filter_civ_reads|]. split; [now apply filter_civ_tight|]. split; [discriminate|]. unfold sound.
  eapply (C50_sort_partial "sort -r" (mkInv "sort" [Flag "-r"] []) _ _ _ simple_system simple_sort shipped_dir).
  - vm_compute; reflexivity.
  - reflexivity.
  - eapply offered_first; [vm_compute; reflexivity|now left].
  - split; reflexivity.
  - now apply filter_civ_reads.
  - intros (n & I & U). apply uses_in in U. cbn in I, U. intuition subst; discriminate.
  - exact simple_is_sort.
  - exact simple_sort_ok.
  - intros s seed seed'. now apply simple_key_seed.
Qed.
Definition three_pieces : list string := ["ax
bx
"; "cy
"; "dz
ab
ez
"].
Definition three_plan : plan := Node 9 0 [Leaf 3 4 0; Node 10 1 [Leaf 5 6 0; Leaf 7 8 5]].
(** grep -v b | cut -c 1 | sort -r on three parts *)
Example C76_fused_case : forall s, fused simple_system shipped_dir s [grep_stage; cut_stage] sort_stage three_plan three_pieces "e
d
c
a
".
Proof.
  intros s. apply (C76_fused_lines simple_system shipped_dir s [grep_stage; cut_stage] sort_stage three_plan (joined three_pieces) three_pieces).
  - apply Forall_cons; [apply grep_stage_ok|]. apply Forall_cons; [apply cut_stage_ok|constructor].
  - exact sort_stage_ok.
  - exact simple_is_cat.
  - split; [cbn; repeat constructor; cbn; lia|]. now apply filter_civ_fresh.
  - cbn. repeat split.
  - discriminate.
  - reflexivity.
  - split; [reflexivity|]. cbn. constructor; [right; exists "ax
bx"; reflexivity|]. constructor; [right; exists "cy"; reflexivity|constructor].
  - intros front g rest y E S. destruct front as [|g1 [|g2 [|g3 [|]]]]; cbn in E; try discriminate E; inversion E; subst; try exact I.
    left. inversion S; subst. reflexivity.
  - do 3 apply (seq_cons _ _ _ _ _ _ 0). match goal with |- sequential _ _ [] ?x ?z => replace x with z by (vm_compute; reflexivity) end. constructor.
Qed.
(** tr '\n' ' ' | cut -c 1: both are sound, one after the other as well, but not side by side. *)
Lemma tr_stage_ok dir : concatenated simple_system dir tr_stage.
Proof.
  assert (O : offered shipped_dir (mkInv "tr" [] ["\n"; " "]) (chunks SpecPara.concat)) by (eapply offered_first; [vm_compute; reflexivity|now left]).
  split; [eauto|]. split; [reflexivity|]. split; [|split; [reflexivity|intros ? ? _ _; exact I]].
  split; [now apply filter_civ_reads|]. split; [now apply filter_civ_tight|]. split; [discriminate|]. unfold sound. cbn [st_par st_civ st_in st_arity st_domain tr_stage].
  eapply (C58_without_squeeze "tr '\n' ' '" (mkInv "tr" [] ["\n"; " "])).
  - vm_compute; reflexivity.
  - reflexivity.
  - now left.
  - split; reflexivity.
  - now apply filter_civ_reads.
  - now apply filter_civ_tight.
  - exact simple_is_tr.
  - exact simple_is_cat.
  - intros (n & I & U). apply uses_in in U. destruct U.
Qed.
Theorem C76_fused_refuted : exists inv1 inv2 t pieces,
  parse shipped_dir "tr '\n' ' '" = Ok inv1 /\ offered shipped_dir inv1 (st_par tr_stage) /\ invocation_of inv1 (st_civ tr_stage) /\
  parse shipped_dir "cut -c 1" = Ok inv2 /\ offered shipped_dir inv2 (st_par cut_stage) /\ invocation_of inv2 (st_civ cut_stage) /\
  plain simple_system shipped_dir tr_stage /\ plain simple_system shipped_dir cut_stage /\
  fresh_plan (st_civ cut_stage) t /\ arity (st_arity cut_stage) t /\ length (parts t) = length pieces /\ cut_at_lines (joined pieces) pieces /\
  forall s, exists r, fused simple_system shipped_dir s [tr_stage] cut_stage t pieces r /\ ~ sequential simple_system s [tr_stage; cut_stage] (joined pieces) r.
Proof.
  set (a := "ab
").
  assert (EA : ends_line a) by (right; exists "ab"; reflexivity).
  exists (mkInv "tr" [] ["\n"; " "]), (mkInv "cut" [Option_ "-c" "1"] []), (Node 7 0 [Leaf 3 4 0; Leaf 5 6 0]), [a; a].
  assert (FR : fresh_plan (st_civ cut_stage) (Node 7 0 [Leaf 3 4 0; Leaf 5 6 0])).
  { split; [cbn; repeat constructor; cbn; lia|]. now apply filter_civ_fresh. }
  split; [vm_compute; reflexivity|]. split; [eapply offered_first; [vm_compute; reflexivity|now left]|]. split; [split; reflexivity|].
  split; [vm_compute; reflexivity|]. split; [eapply offered_first; [vm_compute; reflexivity|right; now left]|]. split; [split; reflexivity|].
  split; [apply tr_stage_ok|]. split; [apply (C76_lines simple_system shipped_dir cut_stage cut_stage_ok simple_is_cat)|].
  split; [exact FR|]. split; [cbn; auto|]. split; [reflexivity|]. split; [split; [reflexivity|apply (Forall_cons a EA), Forall_nil]|].
  intros s. apply (C76_needed simple_system shipped_dir s tr_stage cut_stage).
  - apply tr_stage_ok.
  - apply (C76_lines simple_system shipped_dir cut_stage cut_stage_ok simple_is_cat).
  - exact simple_is_cat.
  - exists (String.substring 0 1). split.
    + intros [|c l] H; [reflexivity|]. cbn in *. apply orb_false_iff in H as (H & _). rewrite H. destruct l; reflexivity.
    + intros seed x. unfold out. rewrite put_run by now apply filter_civ_reads. cbn [st_civ cut_stage v_cmd filter_civ]. rewrite simple_is_cut.
      * unfold wise_output, unlines, lines. cbn [v_flags v_ops filter_civ map wflag_of word_of given existsb mem wflag_name].
        f_equal. cbn. generalize (records newline x). intros l. induction l as [|y l IH]; [reflexivity|]. cbn. now f_equal.
      * apply Forall_cons; [cbn; auto 20|constructor].
  - intros x. exact I.
  - exact EA.
  - vm_compute. intros [E|(t & E)]; [discriminate|]. do 3 (destruct t as [|? t]; [discriminate|injection E as _ E]). destruct t; discriminate.
  - exact FR.
  - cbn. auto.
  - reflexivity.
Qed.
Print Assumptions C76_fused_refuted.
(** ... while stage by stage it is right. *)
Example C76_staged_case : forall s z, staged simple_system shipped_dir s [tr_stage; cut_stage; sort_stage] "ab
ac
" z <-> z = "a
".
Proof.
  intros s z.
  assert (PL : Forall (plain simple_system shipped_dir) [tr_stage; cut_stage; sort_stage]).
  { apply Forall_cons; [apply tr_stage_ok|]. apply Forall_cons; [apply (C76_lines simple_system shipped_dir cut_stage cut_stage_ok simple_is_cat)|].
    apply Forall_cons; [exact sort_stage_ok|constructor]. }
  assert (W : within simple_system s [tr_stage; cut_stage; sort_stage] "ab
ac
").
  { intros front g rest y E _. destruct front as [|g1 [|g2 [|g3 [|]]]]; cbn in E; try discriminate E; inversion E; subst; exact I. }
  assert (Z : sequential simple_system s [tr_stage; cut_stage; sort_stage] "ab
ac
" "a
").
  { do 3 apply (seq_cons _ _ _ _ _ _ 0). match goal with |- sequential _ _ [] ?x ?z => replace x with z by (vm_compute; reflexivity) end. constructor. }
  rewrite (C76_staged_iff _ _ _ _ _ _ PL W). split; [|intros ->; exact Z]. intros H. exact (seq_one _ _ _ _ PL _ _ _ W H Z).
Qed.
(** tr a-z A-Z keeps the ends of lines. *)
Definition upper_stage : stage := mkStage (filter_civ "tr" [] [PArg "a-z"; PArg "A-Z"]) 1 (chunks SpecPara.concat) (fun n => n <> 0) (fun _ => True).
Example C76_tr_keeps_case : forall s, keeps_lines simple_system s upper_stage /\ ~ keeps_lines simple_system s tr_stage.
Proof.
  intros s. split.
  - apply (C76_tr_keeps_iff "tr a-z A-Z" (mkInv "tr" [] ["a-z"; "A-Z"]) simple_system simple_tr).
    + vm_compute; reflexivity.
    + reflexivity.
    + split; reflexivity.
    + now apply filter_civ_reads.
    + intros (n & I & U). apply uses_in in U. destruct U.
    + exact simple_is_tr.
    + reflexivity.
    + intros a _ [-> | H]; [vm_compute; reflexivity|]. vm_compute in H. discriminate.
  - intros K. apply (C76_tr_keeps_iff "tr '\n' ' '" (mkInv "tr" [] ["\n"; " "]) simple_system simple_tr) in K.
    + assert (X := K newline eq_refl (or_introl eq_refl)). vm_compute in X. discriminate.
    + vm_compute; reflexivity.
    + reflexivity.
    + split; reflexivity.
    + now apply filter_civ_reads.
    + intros (n & I & U). apply uses_in in U. destruct U.
    + exact simple_is_tr.
    + reflexivity.
Qed.
