(** * No plan depends on the name of the whole input *)
From Coq Require Import Lia.
Require Import Verif.PyBase Verif.JsonData Verif.Parser Verif.Access Verif.IOInfo Verif.IOVars
  Verif.Transformers Verif.ParaTypes Verif.ParaGen Verif.MapperAgg Verif.SpecLists Verif.SpecVars Verif.SpecPara Verif.SpecMapper
  Verif.ListFacts Verif.IOVarsFacts Verif.IOVarsProps Verif.MapperFacts Verif.P_Mapper
  Verif.SpecSem Verif.SemFacts Verif.SemRun Verif.SemProps Verif.SpecSem4 Verif.SpecNames Verif.NamesFacts.

Lemma loop_ops_origin g l e e' l' : loop_ops (fun el => match el with PVar v => do! w := g v in ret [PVar w] | _ => ret [el] end) l e = (e', Ok l') ->
  forall w, In (PVar w) l' -> exists v e1 e2, In (PVar v) l /\ g v e1 = (e2, Ok w).
Proof.
  revert e l'. induction l as [|x l IH]; intros e l' E w I; cbn in E; [injection E as <- <-; destruct I|].
  unfold ebind at 1 in E.
  set (fx := fun el => match el with PVar v => do! w := g v in ret [PVar w] | _ => ret [el] end) in *.
  change (match x with PVar v => do! w := g v in ret [PVar w] | _ => ret [x] end) with (fx x) in E.
  destruct (fx x e) as [e1 [r|]] eqn:X; [|discriminate].
  unfold ebind in E. destruct (loop_ops fx l e1) as [e2 [l2|]] eqn:L; [|discriminate]. injection E as <- <-.
  apply in_app_iff in I as [I|I].
  - destruct x as [|v| |]; cbn in X; try (injection X as <- <-; destruct I as [I|[]]; discriminate).
    unfold ebind in X. destruct (g v e) as [e3 [w'|]] eqn:G; [|discriminate]. injection X as <- <-. destruct I as [I|[]]. injection I as <-.
    exists v, e, e3. split; [now left|exact G].
  - destruct (IH _ _ L w I) as (v & a & b & J & G). exists v, a, b. split; [now right|exact G].
Qed.
Lemma map_var_ops g c l c' l' u : map_var g (c, l) = ((c', l'), Ok u) ->
  forall w, In (PVar w) (v_ops c') -> exists v e1 e2, In (PVar v) (v_ops c) /\ g v e1 = (e2, Ok w).
Proof.
  unfold map_var, flat_map_anything_non_names, then_, assign. cbn [fst]. intros E w I.
  destruct (loop_flags _ _ _) as [[m1 k1] [f1|]] eqn:L1; [|discriminate]. cbn [fst v_ops v_acc with_flags with_acc v_in v_out] in E.
  destruct (loop_ops _ _ _) as [[m2 k2] [o2|]] eqn:L2; [|discriminate]. cbn [fst v_ops v_acc with_flags with_ops with_acc v_in v_out] in E.
  destruct (visit_implicit _ _ _) as [[m3 k3] [o3|]] eqn:L3; [|discriminate]. cbn [fst v_ops v_acc with_flags with_ops with_in with_acc v_in v_out] in E.
  destruct (visit_implicit _ (v_out c) _) as [[m4 k4] [o4|]] eqn:L4; [|discriminate]. inversion E; subst.
  cbn [v_ops with_out with_acc with_in with_ops with_flags] in I. exact (loop_ops_origin _ _ _ _ _ L2 w I).
Qed.
Lemma replace_var_ops c x t c' u : replace_var c x t = (c', Ok u) -> forall w, In (PVar w) (v_ops c') -> In (PVar w) (v_ops c) \/ w = t.
Proof.
  unfold replace_var. intros E w I. destruct (map_var _ _) as [[c1 l1] r] eqn:M. injection E as <- ->.
  destruct (map_var_ops _ _ _ _ _ _ M w I) as (v & a & b & J & G). destruct x as [|f| |]; try (injection G as _ <-; now left).
  destruct (Z.eqb v f); [|injection G as _ <-; now left]. unfold replace_var_consistently in G.
  destruct (fst a f) eqn:A; [|discriminate]. unfold ebind, pop_access, set_access, ret in G. rewrite A in G. injection G as _ <-. now right.
Qed.
(** The operands of an aggregator are its inputs (or its output). *)
Lemma aggregator_ops dir a c ins out k m : get_aggregator dir a c ins out = Ok (Some (k, m)) ->
  forall w, In (PVar w) (v_ops m) -> In w ins \/ w = out.
Proof.
  assert (MP : forall w, In (PVar w) (map PVar ins) -> In w ins) by (intros w I; apply in_map_iff in I as (v & E & I); congruence).
  intros G w I. unfold get_aggregator in G. destruct (negb _); [discriminate|]. destruct a as [k' b|k' t b|k' s b].
  - unfold get_aggregator_nonfunc in G. destruct k'; try discriminate; try (destruct (assert_ _); discriminate).
    injection G as <- <-. left. now apply MP.
  - unfold get_aggregator_transformer in G. destruct (arity_check _ _); [|discriminate]. cbn [bind] in G. cbv zeta in G.
    destruct (finished (remove_streaming_inputs _)) as [c1|]; [|discriminate]. cbn [bind] in G.
    destruct (register_inputs _ _) as [mm|]; [|discriminate]. cbn [bind] in G.
    destruct (replace_var _ _ _) as [c2 [u|]] eqn:R; [|discriminate]. cbn [finished bind] in G. injection G as <- <-.
    apply (replace_var_ops _ _ _ _ _ R) in I as [I|I]; [left; now apply MP|now right].
  - unfold get_aggregator_string in G. destruct (parse dir s) as [pi|]; [|discriminate]. cbn [bind] in G.
    destruct (only_flags _) as [l|]; [|discriminate]. cbn [bind] in G. cbv zeta in G.
    destruct k'; try (injection G as <- <-; left; now apply MP); destruct (assert_ _); try discriminate; cbn [bind] in G; try discriminate.
    injection G as <- <-. left. now apply MP.
Qed.
Lemma unseen_name B names name seed m s i : ~ In (PVar i) (v_ops m) -> nrun B (put i name names) seed m s = nrun B names seed m s.
Proof.
  intros N. unfold nrun. f_equal. apply map_ext. intros v. f_equal. unfold called. destruct (is_operand m v) eqn:O; [|reflexivity].
  f_equal. unfold put. destruct (Z.eqb_spec v i) as [->|D]; [|reflexivity]. exfalso. apply N. unfold is_operand in O. apply existsb_exists in O as (x & I & E).
  destruct x; try discriminate. apply Z.eqb_eq in E as ->. exact I.
Qed.
Lemma mapper_ops p c i x y m : reads_one c i -> (forall base, mapper_base (p_mapper p) c base -> consistent base /\ incl (vars base) (vars c)) ->
  x <> y -> (v_acc c x = None /\ ~ In x (vars c)) -> (v_acc c y = None /\ ~ In y (vars c)) ->
  get_actual_mapper p c x y [] = Ok (Some m) -> ~ In (PVar i) (v_ops m).
Proof.
  intros (C & K & (o & Vo & Ko) & Ho & Hv) CB NE (X1 & X2) (Y1 & Y2) G.
  unfold get_actual_mapper in G. destruct (assert_ _); [|discriminate]. cbn [bind] in G.
  assert (MI : ms_is_implemented (p_mapper p) = true) by (unfold get_mapper in G; destruct (ms_is_implemented _); [reflexivity|discriminate]).
  set (base := base_mapper (p_mapper p) c). assert (MB : mapper_base (p_mapper p) c base) by now apply base_mapper_spec.
  assert (F : fresh_for base [x; y]).
  { split; [repeat constructor; cbn; intuition|]. intros w [<-|[<-|[]]] J; apply (proj2 (CB base MB)) in J; contradiction. }
  destruct (C43_one_each _ c base x y MI MB (proj1 (CB _ MB)) F) as [(_ & j & o' & Kj & Ko')|((e & R & _) & _)]; [|congruence].
  destruct (C43_mapper _ c base j o' x y MI MB (proj1 (CB _ MB)) Kj Ko' F) as (m' & G' & S & V & A1 & A2 & A3 & A4 & A5).
  rewrite G in G'. injection G' as <-.
  assert (AB : v_acc base = v_acc c) by (destruct MB; auto).
  destruct (proj1 (kept_in _ _ _ i K) (or_introl eq_refl)) as (Ii & Ai). unfold with_access in Ai.
  intros I. assert (IV : In i (vars m)) by now apply in_vars_op. rewrite V in IV. apply in_map_iff in IV as (v & E & Iv).
  assert (Dx : i <> x) by congruence. assert (Dy : i <> y) by congruence.
  unfold renamed in E. destruct (Z.eqb_spec v j) as [E1|D1]; [congruence|]. destruct (Z.eqb_spec v o') as [E2|D2]; [congruence|]. rewrite E in *.
  assert (Hin : In i [j]) by (apply (kept_in _ _ _ i Kj); split; [exact Iv|unfold with_access; now rewrite AB]).
  destruct Hin as [E1|[]]. congruence.
Qed.

Section Blind.
  Context (B : nbehaviour) (dir : data_dir) (p : parallelizer) (c : civ) (i : Z) (s : store) (names : naming) (name : string).
  Hypothesis R : reads_one c i.
  Hypothesis MB : forall base, mapper_base (p_mapper p) c base -> consistent base /\ incl (vars base) (vars c).
  Lemma blind_plan t : fresh_plan c t -> forall r, nevaluates B names dir p c s t r -> nevaluates B (put i name names) dir p c s t r.
  Proof.
    assert (Ai : v_acc c i <> None) by (destruct R as (_ & K & _); destruct (proj1 (kept_in _ _ _ i K) (or_introl eq_refl)) as (_ & A); unfold with_access in A; congruence).
    induction t as [x y sd|o sd ts IH] using plan_rect'; intros F r E.
    - inversion E as [? ? ? m G W|]; subst. rewrite <- (unseen_name B names name sd m s i); [now constructor|].
      destruct F as (N & F). cbn in N, F. inversion N as [|? ? N1 N2]; subst.
      apply (mapper_ops p c i x y m R MB); auto. intros ->. apply N1. now left.
    - inversion E as [|? ? ? outs k a EA G W]; subst. rewrite <- (unseen_name B names name sd a _ i).
      + econstructor; [|exact G|exact W]. clear G W E. pose proof (fresh_children _ _ _ _ F) as FC. clear F. revert outs EA.
        induction ts as [|t ts IHts]; intros outs EA; inversion EA; subst; constructor.
        * inversion IH; subst. inversion FC; subst. auto.
        * inversion IH; subst. inversion FC; subst. auto.
      + intros I. destruct F as (N & F). apply (aggregator_ops _ _ _ _ _ _ _ G) in I. apply Ai. apply F. cbn. destruct I as [I| ->]; [right|now left].
        apply in_map_iff in I as (t & <- & I). apply in_flat_map. exists t. split; [exact I|]. destruct t; cbn; auto.
  Qed.
End Blind.
(** Aggregators given by a command line *)
Lemma string_nrun dir k text c ins out outs agg flags : parse dir text = Ok agg -> flags_only (flag_option_list agg) flags -> k <> ADJ_LINES_FUNC ->
  SpecMapper.takes k (length ins) -> NoDup (out :: ins) -> length ins = length outs ->
  exists a, get_aggregator dir (AggString k text true) c ins out = Ok (Some (k, a)) /\ writes a out /\
    forall B names seed s, nrun B names seed a (connect ins outs s) =
      B seed (cmd_name agg) (map (fun fo => WFlag (fo_name fo)) (flag_option_list agg)) (map (fun _ => WStream STREAM_INPUT) outs) (combine (map (fun v => Some (names v)) ins) outs).
Proof.
  intros P F NK T N L. destruct (C47_aggregator dir k text c ins out agg flags P F NK T) as (a & G & E1 & E2 & E3 & _ & _ & V & A1 & A2 & A3).
  exists a. split; [exact G|]. apply NoDup_cons_iff in N as (Ni & Nd). split.
  - split; [rewrite V; apply in_app_iff; right; now left|exact A1].
  - intros B names seed s. unfold nrun. rewrite E1, E3.
    assert (A2' : forall v, In v ins -> v_acc a v = Some STREAM_INPUT) by (intros v I; apply A2; [congruence|exact I]).
    assert (S : streams a = ins).
    { unfold streams. rewrite V, filter_app. rewrite filter_all, filter_none, app_nil_r; [reflexivity| |].
      - intros v [<-|[]]. now rewrite A1.
      - intros v I. now rewrite A2'. }
    rewrite S. f_equal.
    + rewrite E2. clear -F. induction F as [|x y l l' (n & -> & ->) _ IH]; [reflexivity|]. cbn. now rewrite IH.
    + rewrite map_map. transitivity (map (fun _ : Z => WStream STREAM_INPUT) ins).
      * apply map_ext_in. intros v I. cbn. now rewrite A2'.
      * clear -L. revert outs L. induction ins as [|v ins IH]; intros [|x outs] L; try discriminate; [reflexivity|]. cbn. f_equal. apply IH. now injection L.
    + transitivity (map (fun v => (Some (names v), connect ins outs s v)) ins).
      * apply map_ext_in. intros v I. f_equal. unfold called. assert (O : is_operand a v = true); [|now rewrite O].
        unfold is_operand. rewrite E3. apply existsb_exists. exists (PVar v). split; [now apply in_map|apply Z.eqb_refl].
      * transitivity (combine (map (fun v => Some (names v)) ins) (map (connect ins outs s) ins)); [|now rewrite (connect_in ins outs s Nd L)].
        generalize (connect ins outs s). intros st. clear. induction ins; [reflexivity|]. cbn. now rewrite IHins.
Qed.
