(** * Theorems about invocations with io variables (C34-C42) *)
Require Import Verif.PyBase Verif.Access Verif.IOInfo Verif.IOVars Verif.SpecPara Verif.SpecVars
  Verif.ParaProps Verif.IOVarsFacts Verif.IOVarsProps.
From Coq Require Import Lia.
Local Open Scope Z_scope.

Lemma old_eq k c old : kept (with_access c k) (vars c) old -> old = old_of k c.
Proof. intros K. eapply kept_fun; [exact K|apply old_kept]. Qed.

(** An invocation used in the examples: grep -f 1 -i pat 2 3 - with output to 4. *)
Definition example : civ :=
  mkCiv "grep" [FOptIO "-f" (PVar 1); FFlag "-i"] [PArg "pat"; PVar 2; PVar 3] PNone (PVar 4)
    (am_of [2; 3] STREAM_INPUT (am_set (am_set am_empty 4 STREAM_OUTPUT) 1 CONFIG_INPUT)).
Lemma example_tight : tight example.
Proof.
  assert (V : vars example = [1; 2; 3; 4]) by reflexivity.
  assert (D : forall v, v_acc example v <> None -> In v [1; 2; 3; 4]).
  { intros v. cbn. unfold am_set, am_empty. intros H.
    destruct (Z.eqb_spec v 3), (Z.eqb_spec v 2), (Z.eqb_spec v 1), (Z.eqb_spec v 4); subst; auto; congruence. }
  split; [split|exact D].
  - rewrite V. repeat constructor; cbn; lia.
  - rewrite V. intros v I. cbn in I. destruct I as [<-|[<-|[<-|[<-|[]]]]]; discriminate.
Qed.
Lemma example_consistent : consistent example.
Proof. apply example_tight. Qed.

(** ** C34: substituting streaming inputs or outputs *)
Theorem C34_skeleton : forall c c',
  skeleton c = skeleton c' -> vars c = vars c' -> v_acc c = v_acc c' -> c = c'.
Proof. exact skeleton_inj. Qed.
Print Assumptions C34_skeleton.
Theorem C34_inputs : forall c old new,
  consistent c -> kept (with_access c STREAM_INPUT) (vars c) old -> fresh_for c new -> length new = length old ->
  exists c', substitute_inputs_in_cmd_invocation c new = ((c', []), Ok tt) /\
    skeleton c' = skeleton c /\ filled (with_access c STREAM_INPUT) (vars c) new (vars c') /\
    moved old new (v_acc c) (v_acc c').
Proof. intros c old new C K F L. apply old_eq in K as ->. exact (substitute_fresh STREAM_INPUT c new C F L). Qed.
Print Assumptions C34_inputs.
Theorem C34_outputs : forall c old new,
  consistent c -> kept (with_access c STREAM_OUTPUT) (vars c) old -> fresh_for c new -> length new = length old ->
  exists c', substitute_outputs_in_cmd_invocation c new = ((c', []), Ok tt) /\
    skeleton c' = skeleton c /\ filled (with_access c STREAM_OUTPUT) (vars c) new (vars c') /\
    moved old new (v_acc c) (v_acc c').
Proof. intros c old new C K F L. apply old_eq in K as ->. exact (substitute_fresh STREAM_OUTPUT c new C F L). Qed.
Print Assumptions C34_outputs.
Example C34_outputs_case : exists c', substitute_outputs_in_cmd_invocation example [9] = ((c', []), Ok tt) /\
  skeleton c' = skeleton example /\ filled (with_access example STREAM_OUTPUT) (vars example) [9] (vars c') /\ moved [4] [9] (v_acc example) (v_acc c').
Proof.
  apply (C34_outputs example [4] [9] example_consistent (old_kept STREAM_OUTPUT example)); [|reflexivity].
  split; [repeat constructor; cbn; lia|]. intros w [<-|[]]; cbn; lia.
Qed.
(** Substituting inputs does not change what the outputs are. *)
Lemma outputs_survive c c1 ins new outs : kept (with_access c STREAM_INPUT) (vars c) ins -> fresh_for c new ->
  filled (with_access c STREAM_INPUT) (vars c) new (vars c1) -> moved ins new (v_acc c) (v_acc c1) ->
  kept (with_access c STREAM_OUTPUT) (vars c) outs -> kept (with_access c1 STREAM_OUTPUT) (vars c1) outs.
Proof.
  intros KI FI F1 M1 KO. apply old_eq in KI as ->.
  destruct M1 as (A & _ & B). unfold with_access in *.
    assert (AI : forall w, In w new -> v_acc c1 w = Some STREAM_INPUT).
    { assert (H : forall u, In u (old_of STREAM_INPUT c) -> v_acc c u = Some STREAM_INPUT) by (intros u I; now apply old_in in I).
      clear -A H. induction A as [|a b l l' P A IH]; [easy|]. intros w [<-|I].
      - rewrite P. apply H. now left.
      - apply IH; [|exact I]. intros u J. apply H. now right. }
    assert (AO : forall v, In v (vars c) -> v_acc c v <> Some STREAM_INPUT -> v_acc c1 v = v_acc c v).
    { intros v I E. apply B.
      - rewrite old_in. tauto.
      - intros J. now apply (proj2 FI v). }
    revert AI AO. clear -KO F1. revert outs KO.
    induction F1 as [|v w l new l' P F IH|v l new l' P F IH]; intros outs KO AI AO.
    - inversion KO. constructor.
    - inversion KO as [|? ? ? Q K'|? ? ? Q K']; subst; [congruence|]. apply kept_no.
      + rewrite AI by (now left). discriminate.
      + apply IH; auto; [intros x I; apply AI; now right|]. intros x I. apply AO. now right.
    - assert (IHk : forall o, kept (fun v => v_acc c v = Some STREAM_OUTPUT) l o -> kept (fun v => v_acc c1 v = Some STREAM_OUTPUT) l' o).
      { intros o K'. apply IH; auto. intros x I. apply AO. now right. }
      inversion KO as [|? ? ? Q K'|? ? ? Q K']; subst; [apply kept_yes|apply kept_no]; auto; rewrite AO; auto; now left.
Qed.
(** Both, one after the other; the outputs are those of the original. *)
Theorem C34_both : forall c ins outs new_ins new_outs,
  consistent c -> kept (with_access c STREAM_INPUT) (vars c) ins -> kept (with_access c STREAM_OUTPUT) (vars c) outs ->
  fresh_for c (new_ins ++ new_outs) -> length new_ins = length ins -> length new_outs = length outs ->
  exists c1 c', substitute_inputs_and_outputs c new_ins new_outs = (c', Ok tt) /\
    skeleton c' = skeleton c /\
    filled (with_access c STREAM_INPUT) (vars c) new_ins (vars c1) /\ moved ins new_ins (v_acc c) (v_acc c1) /\
    kept (with_access c1 STREAM_OUTPUT) (vars c1) outs /\
    filled (with_access c1 STREAM_OUTPUT) (vars c1) new_outs (vars c') /\ moved outs new_outs (v_acc c1) (v_acc c').
Proof.
  intros c ins outs ni no C KI KO [N F] LI LO. pose proof (old_eq _ _ _ KI) as ->. 
  assert (FI : fresh_for c ni).
  { split; [eapply NoDup_app_remove_r; exact N|]. intros w I. apply F, in_or_app. now left. }
  destruct (substitute_fresh STREAM_INPUT c ni C FI LI) as (c1 & R1 & S1 & F1 & M1).
  assert (C1 : consistent c1).
  { apply (moved_consistent STREAM_INPUT c c1 ni); auto; [apply FI|now apply fresh_apart]. }
  assert (KO1 : kept (with_access c1 STREAM_OUTPUT) (vars c1) outs).
  { eapply outputs_survive; eassumption. }
  pose proof (old_eq _ _ _ KO1) as ->.
  assert (FO : fresh_for c1 no).
  { split; [eapply NoDup_app_remove_l; exact N|]. intros w I J. rewrite (filled_in _ _ _ _ F1) in J. destruct J as [J|[J _]].
    - apply in_split in J as (a & b & ->). rewrite <- app_assoc in N. apply NoDup_remove_2 in N. apply N.
      apply in_or_app. right. apply in_or_app. now right.
    - apply (F w); [apply in_or_app; now right|exact J]. }
  destruct (substitute_fresh STREAM_OUTPUT c1 no C1 FO LO) as (c2 & R2 & S2 & F2 & M2).
  exists c1, c2. split; [|rewrite S2, S1; repeat split; auto; apply M1 || apply M2].
  unfold substitute_inputs_and_outputs, substitute_inputs_in_cmd_invocation, substitute_outputs_in_cmd_invocation.
  change (substitute is_stream_input) with (subst_of STREAM_INPUT). rewrite R1.
  change (substitute is_stream_output) with (subst_of STREAM_OUTPUT). now rewrite R2.
Qed.
Print Assumptions C34_both.
Example C34_both_case : exists c', substitute_inputs_and_outputs example [7; 8] [9] = (c', Ok tt) /\ vars c' = [1; 7; 8; 9] /\
  fresh_for example ([7; 8] ++ [9]) /\ v_acc c' 9 = Some STREAM_OUTPUT /\ v_acc c' 4 = None /\ v_acc c' 2 = None.
Proof.
  eexists. split; [vm_compute; reflexivity|]. split; [reflexivity|]. split; [|repeat split].
  split; [repeat constructor; cbn; lia|]. intros w [<-|[<-|[<-|[]]]]; cbn; lia.
Qed.
Example C34_case : consistent example /\ kept (with_access example STREAM_INPUT) (vars example) [2; 3] /\
  fresh_for example [7; 8] /\
  exists c', substitute_inputs_in_cmd_invocation example [7; 8] = ((c', []), Ok tt) /\ vars c' = [1; 7; 8; 4] /\
    v_acc c' 7 = Some STREAM_INPUT /\ v_acc c' 2 = None /\ v_acc c' 1 = Some CONFIG_INPUT.
Proof.
  split; [apply example_consistent|]. split; [exact (old_kept STREAM_INPUT example)|]. split.
  - split; [repeat constructor; cbn; lia|]. intros w [<-|[<-|[]]]; cbn; lia.
  - eexists. split; [vm_compute; reflexivity|]. repeat split.
Qed.

(** ** C35: wrong numbers of variables *)
Theorem C35_number : forall k c old new, k = STREAM_INPUT \/ k = STREAM_OUTPUT ->
  consistent c -> kept (with_access c k) (vars c) old -> fresh_for c new ->
  let outcome := snd (substitute_streams k c new) in
  (outcome = Ok tt <-> length new = length old) /\
  (outcome = Raise IndexError <-> (length new < length old)%nat) /\
  (outcome = Raise AssertionError <-> (length new > length old)%nat).
Proof.
  intros k c old new K C O F outcome. apply old_eq in O as ->.
  assert (E : outcome = snd (subst_of k (c, new))) by (destruct K as [-> | ->]; reflexivity).
  assert (T : (length new < length (old_of k c))%nat /\ outcome = Raise IndexError \/
              length new = length (old_of k c) /\ outcome = Ok tt \/
              (length new > length (old_of k c))%nat /\ outcome = Raise AssertionError).
  { rewrite E. destruct (lt_eq_lt_dec (length new) (length (old_of k c))) as [[L|L]|L].
    - left. destruct (substitute_few k c new C (fresh_apart k c new F) L) as (c1 & -> & _). auto.
    - right. left. destruct (substitute_fresh k c new C F L) as (c1 & -> & _). auto.
    - right. right. split; [exact L|]. set (n1 := firstn (length (old_of k c)) new). set (n2 := skipn (length (old_of k c)) new).
      assert (X : new = n1 ++ n2) by (symmetry; apply firstn_skipn).
      destruct (kept_length_filled _ _ _ (old_kept k c) n1) as [us U].
      { unfold n1. rewrite firstn_length. lia. }
      assert (D : apart k (v_acc c) (vars c) n1).
      { intros w v I J Q. apply (fresh_apart k c new F w v); auto. rewrite X. apply in_or_app. now left. }
      destruct (substitute_runs k c n1 us n2 C D U) as (c1 & R1 & _). rewrite <- X in R1. rewrite R1. cbn.
      assert (length n2 > 0)%nat by (unfold n2; rewrite skipn_length; lia). destruct n2; [cbn in *; lia|reflexivity]. }
  clear E. destruct T as [[L ->]|[[L ->]|[L ->]]]; repeat split; intros X; congruence || lia.
Qed.
Print Assumptions C35_number.
Example C35_case :
  snd (substitute_inputs_in_cmd_invocation example [7]) = Raise IndexError /\
  snd (substitute_inputs_in_cmd_invocation example [7; 8; 9]) = Raise AssertionError.
Proof. split; vm_compute; reflexivity. Qed.

(** ** C36: without freshness *)
Theorem C36_any_variables_refuted : exists c c' new,
  consistent c /\ NoDup new /\ substitute_inputs_in_cmd_invocation c new = ((c', []), Ok tt) /\
  filled (with_access c STREAM_INPUT) (vars c) new (vars c') /\ exists v, In v (vars c') /\ v_acc c' v = None.
Proof.
  exists example. eexists. exists [3; 7]. split; [apply example_consistent|]. split; [repeat constructor; cbn; lia|].
  split; [vm_compute; reflexivity|]. split.
  - change (vars _) with [1; 2; 3; 4] at 1. change (vars _) with [1; 3; 7; 4].
    apply filled_no; [discriminate|]. apply filled_yes; [reflexivity|]. apply filled_yes; [reflexivity|].
    apply filled_no; [discriminate|]. constructor.
  - exists 3. split; [cbn; auto|reflexivity].
Qed.
Print Assumptions C36_any_variables_refuted.
(** The exact condition: no new name is a variable that stays, or one replaced later. *)
Theorem C36_iff : forall k c old new, k = STREAM_INPUT \/ k = STREAM_OUTPUT ->
  consistent c -> kept (with_access c k) (vars c) old -> NoDup new -> length new = length old ->
  ((exists c', substitute_streams k c new = ((c', []), Ok tt) /\ consistent c' /\
      skeleton c' = skeleton c /\ filled (with_access c k) (vars c) new (vars c') /\
      moved old new (v_acc c) (v_acc c')) <->
   (forall w, In w new -> In w (vars c) -> In w old) /\ no_capture old new).
Proof.
  intros k c old new KK C K N L. apply old_eq in K as ->.
  replace (substitute_streams k c new) with (subst_of k (c, new)) by (destruct KK as [-> | ->]; reflexivity).
  assert (AP : (forall w, In w new -> In w (vars c) -> In w (old_of k c)) ->
             apart k (v_acc c) (vars c) new).
  { intros H w v I J Q ->. apply H in I; auto. apply old_in in I. tauto. }
  destruct (kept_length_filled _ _ _ (old_kept k c) new L) as [us U]. split.
  - intros (c' & R & C' & S & F & M). pose proof (filled_fun _ _ _ _ F _ U) as V.
    assert (H : forall w, In w new -> In w (vars c) -> In w (old_of k c)).
    { intros w I J. apply old_in. split; [exact J|].
      destruct (v_acc c w) as [a|] eqn:E; [|now elim (proj2 C w J)].
      destruct (access_eqb a k) eqn:B; [apply access_eqb_eq in B; congruence|].
      exfalso. apply (filled_apart _ _ _ _ F (proj1 C') w w I J); [|reflexivity].
      unfold with_access. rewrite E. intros X. injection X as ->. now destruct k. }
    split; [exact H|].
    destruct (substitute_runs k c new us [] C (AP H) U) as (c1 & R1 & _ & V1 & A1).
    rewrite app_nil_r in R1. rewrite R1 in R. injection R as ->.
    apply (shift_capture k (old_of k c) (v_acc c) new); auto.
    intros w I. rewrite <- A1. apply (proj2 C'). rewrite (filled_in _ _ _ _ F). now left.
  - intros [H NC]. destruct (substitute_runs k c new us [] C (AP H) U) as (c1 & R1 & S1 & V1 & A1).
    rewrite app_nil_r in R1. subst us. exists c1. split; [exact R1|].
    assert (M : moved (old_of k c) new (v_acc c) (v_acc c1)).
    { rewrite A1. apply shift_moved; auto.
      - intros v I. now apply old_in in I.
      - eapply kept_NoDup; [apply old_kept|apply C]. }
    split; [|auto]. apply (moved_consistent k c c1 new); auto.
Qed.
Print Assumptions C36_iff.
(** for example, variables may be reused once they have been replaced *)
Example C36_case : exists c', substitute_inputs_in_cmd_invocation example [7; 2] = ((c', []), Ok tt) /\
  no_capture [2; 3] [7; 2] /\ vars c' = [1; 7; 2; 4] /\ v_acc c' 2 = Some STREAM_INPUT /\ v_acc c' 3 = None.
Proof.
  eexists. split; [vm_compute; reflexivity|]. split; [|repeat split].
  constructor; [cbn; lia|]. constructor; [cbn; lia|]. constructor.
Qed.

(** ** C37: queries *)
Theorem C37_inputs : forall c, (forall v, In v (vars c) -> v_acc c v <> None) ->
  exists l, kept (with_access c STREAM_INPUT) (vars c) l /\ generate_inputs c = (c, Ok ([], l)).
Proof.
  intros c A. destruct (collect_ok is_stream_input c A) as (l & R & K). exists l. split.
  - eapply kept_ext; [|exact K]. intros v. unfold selected, with_access, is_stream_input. split.
    + intros (a & E & P). apply access_eqb_eq in P. congruence.
    + intros E. exists STREAM_INPUT. auto.
  - unfold generate_inputs. now rewrite R.
Qed.
Print Assumptions C37_inputs.
Theorem C37_outputs : forall c, (forall v, In v (vars c) -> v_acc c v <> None) ->
  exists l, kept (fun v => with_access c STREAM_OUTPUT v \/ with_access c OTHER_OUTPUT v) (vars c) l /\
    generate_outputs c = (c, Ok l).
Proof.
  intros c A. destruct (collect_ok is_any_output c A) as (l & R & K). exists l. split; [|exact R].
  eapply kept_ext; [|exact K]. intros v. unfold selected, with_access. split.
  - intros (a & E & P). destruct a; cbn in P; try discriminate; rewrite E; auto.
  - intros [E|E]; eauto.
Qed.
Print Assumptions C37_outputs.
Theorem C37_other_outputs : forall c, (forall v, In v (vars c) -> v_acc c v <> None) ->
  exists b, has_other_outputs_vars c = (c, Ok b) /\
    (b = true <-> exists v, In v (vars c) /\ with_access c OTHER_OUTPUT v).
Proof.
  intros c A. destruct (collect_ok is_other_output c A) as (l & R & K). unfold has_other_outputs_vars. rewrite R.
  eexists. split; [reflexivity|]. rewrite Nat.ltb_lt. split.
  - intros L. destruct l as [|v l]; [cbn in L; lia|]. exists v. destruct (proj1 (kept_in _ _ _ v K) (or_introl eq_refl)) as [I (a & E & P)].
    split; [exact I|]. apply access_eqb_eq in P. unfold with_access. congruence.
  - intros (v & I & E). assert (J : In v l) by (apply (kept_in _ _ _ v K); split; [exact I|]; exists OTHER_OUTPUT; auto).
    destruct l; [destruct J|]. cbn. lia.
Qed.
Print Assumptions C37_other_outputs.
(** A variable without access is reported by KeyError; nothing is changed in any case. *)
Theorem C37_missing : forall c v, In v (vars c) -> v_acc c v = None ->
  generate_inputs c = (c, Raise KeyError) /\ generate_outputs c = (c, Raise KeyError) /\
  has_other_outputs_vars c = (c, Raise KeyError).
Proof.
  intros c v I E. unfold generate_inputs, generate_outputs, has_other_outputs_vars.
  rewrite !(collect_missing _ c v I E). auto.
Qed.
Print Assumptions C37_missing.
Example C37_missing_case : let c := mkCiv "cat" [] [PVar 1] PNone PNone am_empty in In 1 (vars c) /\ generate_inputs c = (c, Raise KeyError).
Proof. intros c. split; [now left|]. refine (proj1 (C37_missing c 1 _ eq_refl)). now left. Qed.
Theorem C37_unchanged : forall c,
  fst (generate_inputs c) = c /\ fst (generate_outputs c) = c /\ fst (has_other_outputs_vars c) = c.
Proof.
  intros c. unfold generate_inputs, generate_outputs, has_other_outputs_vars.
  pose proof (collect_unchanged is_stream_input c) as A. pose proof (collect_unchanged is_any_output c) as B.
  pose proof (collect_unchanged is_other_output c) as D.
  destruct (collect is_stream_input c) as [c1 []], (collect is_any_output c) as [c2 []], (collect is_other_output c) as [c3 []];
    cbn in *; auto.
Qed.
Print Assumptions C37_unchanged.
Example C37_case : generate_inputs example = (example, Ok ([], [2; 3])) /\ generate_outputs example = (example, Ok [4]) /\
  has_other_outputs_vars example = (example, Ok false).
Proof. repeat split. Qed.

(** ** C38: arguments of OptionWithIOVar *)
(** Refuted: [OptionWithIOVar], the class named in the constructor's type, is not looked into. *)
Theorem C38_options_refuted : exists c v,
  In (FOptVar "-o" (PVar v)) (v_flags c) /\ v_acc c v = Some OTHER_OUTPUT /\
  generate_outputs c = (c, Ok []) /\ has_other_outputs_vars c = (c, Ok false).
Proof.
  exists (mkCiv "sort" [FOptVar "-o" (PVar 1)] [PVar 2] PNone PNone
            (am_set (am_set am_empty 1 OTHER_OUTPUT) 2 STREAM_INPUT)), 1.
  repeat split. now left.
Qed.
Print Assumptions C38_options_refuted.
Lemma collect_depends p c c' : vars c = vars c' -> v_acc c = v_acc c' -> snd (collect p c) = snd (collect p c').
Proof.
  intros V A. unfold collect. pose proof (map_var_runs (collect_fun p) c []) as M. pose proof (map_var_runs (collect_fun p) c' []) as M'.
  rewrite V, A in M. destruct (mapE (collect_fun p) (vars c') (v_acc c', [])) as [[m l] [ws|x]];
    destruct M as (c1 & -> & _); destruct M' as (c2 & -> & _); reflexivity.
Qed.
(** In general such an option has no influence on any query. *)
Theorem C38_options_ignored : forall c l1 n a l2,
  let without := with_flags (l1 ++ l2) c in
  let c' := with_flags (l1 ++ FOptVar n a :: l2) c in
  snd (generate_inputs c') = snd (generate_inputs without) /\
  snd (generate_outputs c') = snd (generate_outputs without) /\
  snd (has_other_outputs_vars c') = snd (has_other_outputs_vars without).
Proof.
  intros c l1 n a l2 w c'.
  assert (V : vars c' = vars w).
  { rewrite !vars_eq. cbn [v_flags v_ops v_in v_out with_flags w c']. unfold option_args. now rewrite !flat_map_app. }
  assert (D : forall p, snd (collect p c') = snd (collect p w)) by (intros p; now apply collect_depends).
  unfold generate_inputs, generate_outputs, has_other_outputs_vars.
  pose proof (D is_stream_input) as D1. pose proof (D is_any_output) as D2. pose proof (D is_other_output) as D3.
  destruct (collect is_stream_input c') as [? []], (collect is_stream_input w) as [? []],
    (collect is_other_output c') as [? []], (collect is_other_output w) as [? []]; cbn [snd] in *;
    (split; [|split]); congruence.
Qed.
Print Assumptions C38_options_ignored.
Example C38_options_ignored_case : snd (generate_inputs (with_flags [FFlag "-n"; FOptVar "-k" (PVar 1); FFlag "-u"] example)) = Ok ([], [2; 3]).
Proof. exact (eq_trans (proj1 (C38_options_ignored example [FFlag "-n"] "-k" (PVar 1) [FFlag "-u"])) eq_refl). Qed.
(** Arguments of [OptionWithIO] are visited: C34, C37 and C39 cover them ([slots]). *)
Theorem C38_options_with_io_partial : forall c n v k,
  In (FOptIO n (PVar v)) (v_flags c) -> consistent c -> v_acc c v = Some k -> (k = STREAM_OUTPUT \/ k = OTHER_OUTPUT) ->
  exists l, generate_outputs c = (c, Ok l) /\ In v l.
Proof.
  intros c n v k I [_ A] E K. destruct (C37_outputs c A) as (l & Kl & R). exists l. split; [exact R|].
  apply (kept_in _ _ _ v Kl). split.
  - unfold vars, slots. rewrite flat_map_app. apply in_or_app. left. apply in_flat_map. exists (PVar v). split; [|now left].
    apply in_flat_map. exists (FOptIO n (PVar v)). split; [exact I|now left].
  - unfold with_access. destruct K as [-> | ->]; auto.
Qed.
Print Assumptions C38_options_with_io_partial.
Example C38_case : exists c l, In (FOptIO "-o" (PVar 1)) (v_flags c) /\ consistent c /\ v_acc c 1 = Some OTHER_OUTPUT /\
  generate_outputs c = (c, Ok l) /\ In 1 l.
Proof.
  exists (mkCiv "sort" [FOptIO "-o" (PVar 1)] [PVar 2] PNone PNone
            (am_set (am_set am_empty 1 OTHER_OUTPUT) 2 STREAM_INPUT)), [1].
  repeat split; cbn; auto.
  - repeat constructor; cbn; lia.
  - intros v [<-|[<-|[]]]; discriminate.
Qed.

(** ** C39: removing streaming inputs or outputs *)
Theorem C39_removed : forall k c c', k = STREAM_INPUT \/ k = STREAM_OUTPUT -> consistent c ->
  ((if access_eqb k STREAM_INPUT then remove_streaming_inputs c else remove_streaming_outputs c) = (c', Ok tt) ->
   removed k c c' /\ kept (fun v => v_acc c v <> Some k) (vars c) (vars c') /\
   (forall v, In v (vars c') -> v_acc c' v = v_acc c v /\ v_acc c' v <> Some k)).
Proof.
  intros k c c' K [N A] R. assert (R' : remove_streaming (fun a => access_eqb a k) c = (c', Ok tt)) by (destruct K as [-> | ->]; exact R).
  pose proof (remove_success k c c' A N R') as X. pose proof (removed_vars k c c' X) as Y. split; [exact X|]. split; [exact Y|].
  intros v I. apply (kept_in _ _ _ _ Y) in I as [I E]. destruct X as (_ & _ & _ & _ & _ & _ & _ & B).
  rewrite B by tauto. auto.
Qed.
Print Assumptions C39_removed.
Theorem C39_succeeds_iff : forall k c, k = STREAM_INPUT \/ k = STREAM_OUTPUT -> consistent c ->
  let call := if access_eqb k STREAM_INPUT then remove_streaming_inputs c else remove_streaming_outputs c in
  (snd call = Ok tt <-> forall x, In x (option_args (v_flags c)) -> ~ has c k x) /\
  (snd call <> Ok tt -> snd call = Raise ValueError).
Proof.
  intros k c K C call. assert (E : call = remove_streaming (fun a => access_eqb a k) c) by (destruct K as [-> | ->]; reflexivity).
  rewrite E. clear E call.
  destruct (existsb (kvar k (v_acc c)) (option_args (v_flags c))) eqn:E.
  - apply existsb_exists in E as (x & I & X). apply kvar_iff in X.
    destruct (remove_fails k c x (proj2 C) I X) as (v & _ & _ & ->). cbn. split; [split|auto].
    + discriminate.
    + intros H. now elim (H x I).
  - assert (H : forall x, In x (option_args (v_flags c)) -> ~ has c k x).
    { intros x I H. apply kvar_iff in H. enough (existsb (kvar k (v_acc c)) (option_args (v_flags c)) = true) by congruence.
      apply existsb_exists. eauto. }
    destruct (remove_ok k c C H) as (c1 & -> & X). cbn. split; [tauto|congruence].
Qed.
Print Assumptions C39_succeeds_iff.
Example C39_case : exists c', remove_streaming_inputs example = (c', Ok tt) /\ vars c' = [1; 4] /\
  v_ops c' = [PArg "pat"] /\ v_acc c' 2 = None /\ v_acc c' 1 = Some CONFIG_INPUT.
Proof. eexists. split; [vm_compute; reflexivity|]. repeat split. Qed.
Example C39_fails_case :
  snd (remove_streaming_inputs (mkCiv "x" [FOptIO "-f" (PVar 1)] [] PNone PNone (am_set am_empty 1 STREAM_INPUT))) = Raise ValueError.
Proof. reflexivity. Qed.

(** ** C40: replacing one variable *)
Theorem C40_replaced : forall c f t a, NoDup (vars c) -> In f (vars c) -> v_acc c f = Some a ->
  exists c', replace_var c (PVar f) t = (c', Ok tt) /\ skeleton c' = skeleton c /\
    filled (fun v => v = f) (vars c) [t] (vars c') /\
    v_acc c' t = Some a /\ (t <> f -> v_acc c' f = None) /\
    (forall v, v <> f -> v <> t -> v_acc c' v = v_acc c v).
Proof.
  intros c f t a N I E. destruct (replace_once c f t a N I E) as (c' & R & S & V & A). exists c'.
  split; [exact R|]. split; [exact S|]. split.
  - rewrite V. clear -N I.
    assert (Z0 : forall l, ~ In f l -> filled (fun v => v = f) l [] (map (swap f t) l)).
    { induction l as [|v l IH]; intros H; cbn; [constructor|]. unfold swap at 1. destruct (Z.eqb_spec v f) as [->|NE]; [elim H; now left|].
      apply filled_no; [exact NE|]. apply IH. intros J. apply H. now right. }
    induction (vars c) as [|v l IH]; [destruct I|]. apply NoDup_cons_iff in N as [Nv N]. cbn. unfold swap at 1.
    destruct (Z.eqb_spec v f) as [->|NE].
    + apply filled_yes; [reflexivity|]. now apply Z0.
    + apply filled_no; [exact NE|]. apply IH; [exact N|]. destruct I as [I|I]; [contradiction|exact I].
  - rewrite A. split; [apply am_set_eq|]. split.
    + intros NE. rewrite am_set_ne by congruence. apply am_del_eq.
    + intros v NF NT. now rewrite am_set_ne, am_del_ne.
Qed.
Print Assumptions C40_replaced.
Example C40_replaced_case : exists c', replace_var example (PVar 1) 4 = (c', Ok tt) /\ vars c' = [4; 2; 3; 4] /\ v_acc c' 4 = Some CONFIG_INPUT.
Proof. eexists. split; [vm_compute; reflexivity|]. split; reflexivity. Qed.
Theorem C40_absent : forall c t, replace_var c PNone t = (c, Ok tt) /\
  forall f, ~ In f (vars c) -> replace_var c (PVar f) t = (c, Ok tt).
Proof. intros c t. split; [apply replace_none|]. intros f. apply replace_absent. Qed.
Print Assumptions C40_absent.
Example C40_absent_case : replace_var example (PVar 5) 9 = (example, Ok tt).
Proof. apply (proj2 (C40_absent example 9)). cbn. lia. Qed.
Theorem C40_rejected : forall c f t, t <> f -> In f (vars c) ->
  (v_acc c f = None \/ exists x y z, vars c = x ++ f :: y ++ f :: z) ->
  snd (replace_var c (PVar f) t) = Raise AssertionError.
Proof.
  intros c f t N I [E|(x & y & z & V)].
  - destruct (replace_missing c f t I E) as [c' ->]. reflexivity.
  - destruct (replace_twice c f t x y z V N) as [c' ->]. reflexivity.
Qed.
Print Assumptions C40_rejected.
Example C40_rejected_case : let c := mkCiv "cat" [] [PVar 1; PVar 2; PVar 1] PNone PNone (am_of [1; 2] STREAM_INPUT am_empty) in
  snd (replace_var c (PVar 1) 9) = Raise AssertionError.
Proof. intros c. apply C40_rejected; [lia|now left|]. right. now exists [], [2], []. Qed.
Example C40_case : exists c', replace_var example (PVar 4) 9 = (c', Ok tt) /\ vars c' = [1; 2; 3; 9] /\
  v_acc c' 9 = Some STREAM_OUTPUT /\ v_acc c' 4 = None.
Proof. eexists. split; [vm_compute; reflexivity|]. repeat split. Qed.

(** ** C41: histories *)
Theorem C41_histories : forall c calls c', history c calls c' -> consistent c -> consistent c'.
Proof. intros c xs c' H. exact (proj1 (history_keeps c xs c' H)). Qed.
Print Assumptions C41_histories.
(** ... and the access map never knows more than the occurring variables. *)
Theorem C41_no_leftovers : forall c calls c', history c calls c' -> tight c -> tight c'.
Proof. intros c xs c' H. exact (proj2 (history_keeps c xs c' H)). Qed.
Print Assumptions C41_no_leftovers.
Example C41_case : exists c', tight example /\ vars c' = [1; 7; 9] /\
  history example [SubstituteInputs [7; 8]; GenerateInputs; ReplaceVar 4 9; SubstituteInputs [2; 3];
                   ReplaceVar 2 7; ReplaceVar 7 2; RemoveStreamingOutputs; ReplaceVar 3 9; ReplaceVar 2 7] c'.
Proof.
  eexists. split; [apply example_tight|]. split; cycle 1.
  - repeat (eapply h_call;
      [split; [repeat constructor; cbn; lia|cbn; lia]
      |cbn [performs]; first [do 2 eexists; split; [cbv -[am_set am_del am_of am_empty]|]; reflexivity
                             |eexists; split; [cbv -[am_set am_del am_of am_empty]|]; reflexivity]|]).
    apply h_nil.
  - reflexivity.
Qed.

(** ** C42: failed updates *)
Theorem C42_usable_refuted : exists c c' l,
  consistent c /\ substitute_inputs_in_cmd_invocation c [7] = ((c', l), Raise IndexError) /\
  In 2 (vars c') /\ v_acc c' 2 = None.
Proof.
  exists example. eexists. eexists. split; [apply example_consistent|]. split; [vm_compute; reflexivity|].
  split; [cbn; auto|reflexivity].
Qed.
Print Assumptions C42_usable_refuted.
(** What holds after every substitution, failed or not *)
Theorem C42_skeleton_partial : forall c new,
  skeleton (fst (fst (substitute_inputs_in_cmd_invocation c new))) = skeleton c /\
  skeleton (fst (fst (substitute_outputs_in_cmd_invocation c new))) = skeleton c.
Proof.
  assert (G : forall k c new, skeleton (fst (fst (subst_of k (c, new)))) = skeleton c).
  { intros k c new. unfold subst_of, substitute, then_.
    pose proof (map_var_runs (substitute_fun (fun a => access_eqb a k)) c new) as M.
    destruct (mapE _ (vars c) (v_acc c, new)) as [[m l] [ws|x]].
    - destruct M as (c' & -> & S & _). cbn. now destruct l.
    - destruct M as (c' & -> & S & _). exact S. }
  intros c new. split; [apply (G STREAM_INPUT)|apply (G STREAM_OUTPUT)].
Qed.
Print Assumptions C42_skeleton_partial.
(** With too many variables the substitution has happened when the exception is raised. *)
Theorem C42_too_many_partial : forall k c old new extra, k = STREAM_INPUT \/ k = STREAM_OUTPUT ->
  consistent c -> kept (with_access c k) (vars c) old -> fresh_for c new -> length new = length old ->
  extra <> [] ->
  exists c', substitute_streams k c (new ++ extra) = ((c', extra), Raise AssertionError) /\
    substitute_streams k c new = ((c', []), Ok tt) /\ consistent c'.
Proof.
  intros k c old new extra KK C K F L NE. apply old_eq in K as ->.
  assert (E : forall l, substitute_streams k c l = subst_of k (c, l)) by (intros l; destruct KK as [-> | ->]; reflexivity).
  destruct (kept_length_filled _ _ _ (old_kept k c) new L) as [us U].
  pose proof (fresh_apart k c new F) as D.
  destruct (substitute_runs k c new us extra C D U) as (c1 & R1 & S1 & V1 & A1).
  destruct (substitute_runs k c new us [] C D U) as (c2 & R2 & S2 & V2 & A2). rewrite app_nil_r in R2.
  assert (c1 = c2) as <- by (apply skeleton_inj; congruence).
  exists c1. split; [|split].
  - rewrite E, R1. now destruct extra.
  - now rewrite E.
  - destruct (substitute_keeps k c new c1 [] F R2) as [X _]. auto.
Qed.
Print Assumptions C42_too_many_partial.
Example C42_too_many_applied_case : exists c', substitute_streams STREAM_INPUT example ([7; 8] ++ [9]) = ((c', [9]), Raise AssertionError) /\
  substitute_streams STREAM_INPUT example [7; 8] = ((c', []), Ok tt) /\ consistent c'.
Proof.
  apply (C42_too_many_partial STREAM_INPUT example [2; 3] [7; 8] [9] (or_introl eq_refl) example_consistent (old_kept STREAM_INPUT example)); [|reflexivity|discriminate].
  split; [repeat constructor; cbn; lia|]. intros w [<-|[<-|[]]]; cbn; lia.
Qed.
Example C42_too_many_case : snd (substitute_inputs_in_cmd_invocation example ([7; 8] ++ [9])) = Raise AssertionError.
Proof. reflexivity. Qed.
