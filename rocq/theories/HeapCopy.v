(** * deepcopy: it ends, and the copy stands for the same value *)
From Coq Require Import Lia.
Require Import Verif.PyBase Verif.JsonData Verif.Parser Verif.Access Verif.IOInfo Verif.IOVars
  Verif.Transformers Verif.ParaTypes Verif.Heap Verif.SpecHeap Verif.HeapFacts.

Lemma unchanged_refl h : unchanged h h.
Proof. intros l _; reflexivity. Qed.
Lemma unchanged_snoc h o : unchanged h (h ++ [o]).
Proof. intros l H. now apply nth_error_app1. Qed.
Lemma unchanged_length h h' : unchanged h h' -> length h <= length h'.
Proof.
  intros U. destruct (Nat.le_gt_cases (length h) (length h')) as [|G]; auto.
  specialize (U _ G). rewrite (proj2 (nth_error_None _ _)) in U by auto.
  symmetry in U. apply nth_error_None in U. lia.
Qed.

Lemma unchanged_trans h1 h2 h3 : unchanged h1 h2 -> unchanged h2 h3 -> unchanged h1 h3.
Proof. intros A B l H. assert (L := unchanged_length _ _ A). rewrite B by lia. now apply A. Qed.

Definition val_rel (m : memo) (v w : hval) : Prop :=
  match v with
  | HRef l => match memo_get m l with Some l' => w = HRef l' | None => False end
  | _ => w = v
  end.
Definition extends (m m' : memo) : Prop := forall l l', memo_get m l = Some l' -> memo_get m' l = Some l'.
Lemma val_rel_ext m m' v w : extends m m' -> val_rel m v w -> val_rel m' v w.
Proof.
  intros E. destruct v; cbn; auto. destruct (memo_get m l) eqn:Q; [|contradiction].
  now rewrite (E _ _ Q).
Qed.
Lemma memo_get_none m l : memo_get m l = None <-> ~ In l (map fst m).
Proof.
  induction m as [|(a & b) m IH]; cbn; [tauto|]. destruct (Nat.eqb_spec a l) as [->|N].
  - split; [discriminate|tauto].
  - rewrite IH. tauto.
Qed.
(** An entry of the memo whose copy is complete *)
Definition done (h h' : heap) (m : memo) (l l' : loc) : Prop :=
  exists o vs, nth_error h l = Some o /\ nth_error h' l' = Some (refill o vs) /\
               Forall2 (val_rel m) (slots o) vs.
Definition memo_wf (h : heap) (m : memo) : Prop :=
  NoDup (map fst m) /\ forall l, In l (map fst m) -> l < length h.

Lemma memo_wf_length h m : memo_wf h m -> length m <= length h.
Proof.
  intros (A & B). rewrite <- (map_length fst m), <- (seq_length (length h) 0).
  apply NoDup_incl_length; auto. intros l H. apply in_seq. apply B in H. lia.
Qed.

Definition copied (h : heap) (st st' : cstate) : Prop :=
  unchanged (fst st) (fst st') /\ extends (snd st) (snd st') /\ memo_wf h (snd st') /\
  forall l l', memo_get (snd st') l = Some l' -> memo_get (snd st) l = None ->
               done h (fst st') (snd st') l l' /\ length (fst st) <= l' < length (fst st').

Lemma done_mono h h1 h2 m m' l l' :
  l' < length h1 -> unchanged h1 h2 -> extends m m' -> done h h1 m l l' -> done h h2 m' l l'.
Proof.
  intros L U X (o & vs & A & B & C). exists o, vs. split; [auto|]. split; [now rewrite U|].
  clear -C X. induction C; constructor; auto. eapply val_rel_ext; eauto.
Qed.
Lemma copied_trans h st1 st2 st3 : copied h st1 st2 -> copied h st2 st3 -> copied h st1 st3.
Proof.
  intros (U & X & W & D) (U' & X' & W' & D'). split; [|split; [|split]].
  - eapply unchanged_trans; eauto.
  - intros l l' E. auto.
  - auto.
  - intros l l' E E'. destruct (memo_get (snd st2) l) as [k|] eqn:Q.
    + assert (k = l') by (apply X' in Q; congruence). subst k. destruct (D _ _ Q E') as (D1 & D2).
      split; [eapply done_mono; eauto; lia|]. apply unchanged_length in U'. lia.
    + destruct (D' _ _ E Q) as (D1 & D2). split; [auto|]. apply unchanged_length in U. lia.
Qed.
Lemma copied_refl h st : memo_wf h (snd st) -> copied h st st.
Proof.
  intros W. split; [apply unchanged_refl|]. split; [intros l l' E; auto|]. split; [auto|]. congruence.
Qed.

Lemma copy_all_copied h n vs :
  closed h ->
  (forall v st, unchanged h (fst st) -> memo_wf h (snd st) -> valid h v -> length h < n + length (snd st) ->
     exists st' w, copy_val n v st = (st', Some w) /\ copied h st st' /\ val_rel (snd st') v w) ->
  forall st, unchanged h (fst st) -> memo_wf h (snd st) -> Forall (valid h) vs -> length h < n + length (snd st) ->
    exists st' ws, copy_all (copy_val n) vs st = (st', Some ws) /\ copied h st st' /\
                   Forall2 (val_rel (snd st')) vs ws.
Proof.
  intros C F. induction vs as [|v vs IH]; intros st U W V L.
  - exists st, []. split; [reflexivity|]. split; [now apply copied_refl|constructor].
  - apply Forall_cons_iff in V as (V1 & V2). destruct (F v st U W V1 L) as (st1 & w & E & Cp & R).
    assert (L1 : length h < n + length (snd st1)).
    { destruct Cp as (_ & X & W1 & _). cut (length (snd st) <= length (snd st1)); [lia|].
      rewrite <- (map_length fst (snd st)), <- (map_length fst (snd st1)). apply NoDup_incl_length; [apply W|].
      intros l Hl. destruct (memo_get (snd st) l) eqn:Q.
      - apply X in Q. destruct (in_dec Nat.eq_dec l (map fst (snd st1))) as [|Hn]; auto.
        apply memo_get_none in Hn. congruence.
      - apply memo_get_none in Q. contradiction. }
    destruct (IH st1) as (st2 & ws & E' & Cp' & R'); auto.
    + eapply unchanged_trans; [exact U|apply Cp].
    + apply Cp.
    + exists st2, (w :: ws). cbn. rewrite E, E'. split; [reflexivity|]. split; [eapply copied_trans; eauto|].
      constructor; auto. eapply val_rel_ext; [|exact R]. apply Cp'.
Qed.

Lemma copy_val_copied h : closed h -> forall n v st,
  unchanged h (fst st) -> memo_wf h (snd st) -> valid h v -> length h < n + length (snd st) ->
  exists st' w, copy_val n v st = (st', Some w) /\ copied h st st' /\ val_rel (snd st') v w.
Proof.
  intros C. induction n as [|n IH]; intros v st U W V L.
  - apply memo_wf_length in W. lia.
  - destruct v; try (eexists st, _; split; [reflexivity|]; split; [now apply copied_refl|reflexivity]).
    cbn [copy_val]. destruct (memo_get (snd st) l) as [l'|] eqn:E.
    + exists st, (HRef l'). split; [reflexivity|]. split; [now apply copied_refl|]. cbn. now rewrite E.
    + cbn in V. destruct (nth_error h l) as [o|] eqn:Eo.
      2:{ apply nth_error_None in Eo. lia. }
      rewrite (U l V), Eo.
      set (st0 := (fst st ++ [refill o []], (l, length (fst st)) :: snd st)).
      assert (U0 : unchanged h (fst st0)).
      { eapply unchanged_trans; [exact U|apply unchanged_snoc]. }
      assert (W0 : memo_wf h (snd st0)).
      { split; cbn.
        - constructor; [now apply memo_get_none|apply W].
        - intros k [<-|Hk]; auto. now apply W. }
      assert (V0 : Forall (valid h) (slots o)) by (apply C; eapply nth_error_In; eauto).
      destruct (copy_all_copied h n (slots o) C IH st0 U0 W0 V0) as ((h1 & m1) & ws & E1 & Cp & R).
      { cbn. lia. }
      rewrite E1. cbn [fst snd] in Cp, R.
      exists (update h1 (length (fst st)) (refill o ws), m1), (HRef (length (fst st))).
      split; [reflexivity|]. destruct Cp as (U1 & X1 & W1 & D1). unfold st0 in U1, X1, D1. cbn [fst snd] in *.
      assert (Ll : length (fst st) < length h1).
      { apply unchanged_length in U1. rewrite app_length in U1. cbn in U1. lia. }
      assert (Hl : memo_get m1 l = Some (length (fst st))).
      { apply X1. cbn. now rewrite Nat.eqb_refl. }
      split; [|cbn; now rewrite Hl].
      split; [|split; [|split; [exact W1|]]]; cbn [fst snd].
      * intros k Hk. rewrite update_other by lia. rewrite U1 by (cbn; rewrite app_length; lia).
        now apply nth_error_app1.
      * intros k k' Ek. apply X1. cbn. destruct (Nat.eqb_spec l k) as [->|]; [congruence|auto].
      * intros k k' Ek Ek'. rewrite update_length. destruct (Nat.eq_dec l k) as [->|N].
        -- assert (k' = length (fst st)) by congruence. subst k'. split; [|lia].
           exists o, ws. split; [auto|]. split; [now apply update_same|auto].
        -- destruct (D1 k k' Ek) as ((o' & vs' & A & B & Q) & D2).
           { cbn. destruct (Nat.eqb_spec l k); congruence. }
           cbn in D2. rewrite app_length in D2. cbn in D2. split; [|lia].
           exists o', vs'. split; [auto|]. split; [|auto]. rewrite update_other; auto. lia.
Qed.

(** The result of deepcopy *)
Lemma deepcopy_spec h v : closed h -> valid h v ->
  exists h' m w, deepcopy v h = (h', Ok w) /\ unchanged h h' /\ val_rel m v w /\ forall l l', memo_get m l = Some l' -> done h h' m l l'.
Proof.
  intros C V. destruct (copy_val_copied h C (S (length h)) v (h, [])) as ((h' & m) & w & E & Cp & R).
  - apply unchanged_refl.
  - split; cbn; [constructor|contradiction].
  - auto.
  - cbn; lia.
  - exists h', m, w. unfold deepcopy. rewrite E. destruct Cp as (U & _ & _ & D). cbn [fst snd] in *.
    split; [auto|]. split; [auto|]. split; [auto|]. intros l l' El. now apply D.
Qed.

(** ** Views are preserved *)
Definition opt_rel {A B} (R : A -> B -> Prop) (x : option A) (y : option B) : Prop :=
  match x, y with Some a, Some b => R a b | None, None => True | _, _ => False end.
Lemma assoc_s_combine m l k vs :
  Forall2 (val_rel m) (map snd l) vs -> opt_rel (val_rel m) (assoc_s l k) (assoc_s (combine (map fst l) vs) k).
Proof.
  revert vs. induction l as [|(a & v) l IH]; intros vs H; cbn in *; auto.
  inversion_clear H as [|? w ? ws Hv Hl]. cbn. destruct (String.eqb a k); auto.
Qed.
Lemma assoc_z_combine m l k vs :
  Forall2 (val_rel m) (map snd l) vs -> opt_rel (val_rel m) (assoc_z l k) (assoc_z (combine (map fst l) vs) k).
Proof.
  revert vs. induction l as [|(a & v) l IH]; intros vs H; cbn in *; auto.
  inversion_clear H as [|? w ? ws Hv Hl]. cbn. destruct (Z.eqb a k); auto.
Qed.

Section Views.
  Variables (h h' : heap) (m : memo).
  Hypothesis D : forall l l', memo_get m l = Some l' -> done h h' m l l'.
  Lemma attr_rel v w c n : val_rel m v w -> opt_rel (val_rel m) (attr h v c n) (attr h' w c n).
  Proof.
    destruct v; cbn; intros R; subst; cbn; auto.
    destruct (memo_get m l) as [l'|] eqn:E; [|contradiction]. subst w. cbn.
    destruct (D _ _ E) as (o & vs & A & B & C). rewrite A, B. destruct o; cbn; auto.
    destruct (String.eqb cls c); cbn; auto. now apply assoc_s_combine.
  Qed.
  Lemma view_access_rel v w : val_rel m v w -> view_access h' w = view_access h v.
  Proof.
    intros R. unfold view_access. assert (A := attr_rel v w "AccessKind" "kind" R).
    destruct (attr h v "AccessKind" "kind") as [x|], (attr h' w "AccessKind" "kind") as [y|]; cbn in A; try contradiction; auto.
    destruct x; cbn in A; subst; auto. destruct (memo_get m l); [now subst|contradiction].
  Qed.
  Ltac attrs c n A R v w :=
    assert (A := attr_rel v w c n R);
    destruct (attr h v c n) as [?x|], (attr h' w c n) as [?y|]; cbn [opt_rel] in A; try contradiction.
  Ltac refcase := match goal with
    | H : val_rel m (HRef ?l) ?y |- _ => cbn in H; destruct (memo_get m l); [subst y|contradiction]
    | H : val_rel m _ ?y |- _ => cbn in H; subst y
    end.
  Lemma view_val_rel v w : val_rel m v w -> view_val h' w = view_val h v.
  Proof.
    intros R. destruct v; cbn in R; subst; try reflexivity.
    destruct (memo_get m l) as [l'|] eqn:E; [|contradiction]. subst w.
    assert (R : val_rel m (HRef l) (HRef l')) by (cbn; now rewrite E).
    cbn [view_val].
    attrs "ArgStringType" "name" A R (HRef l) (HRef l').
    { destruct x; refcase; auto. }
    attrs "FileNameWithIOInfo" "name" A1 R (HRef l) (HRef l');
    attrs "FileNameWithIOInfo" "access" A2 R (HRef l) (HRef l');
    attrs "StdDescriptorWithIOInfo" "name" A3 R (HRef l) (HRef l');
    attrs "StdDescriptorWithIOInfo" "access" A4 R (HRef l) (HRef l');
    repeat match goal with
    | H : val_rel m ?a ?b |- context [view_access h' ?b] => rewrite (view_access_rel a b H)
    end;
    repeat match goal with
    | H : val_rel m ?x ?y |- context [match ?x with _ => _ end] => destruct x; refcase
    end; auto.
  Qed.
  Lemma view_flag_rel v w : val_rel m v w -> view_flag h' w = view_flag h v.
  Proof.
    intros R. unfold view_flag.
    attrs "Flag" "flag_name" A R v w.
    { destruct x; refcase; auto. }
    attrs "OptionWithIOVar" "option_name" A1 R v w;
    attrs "OptionWithIOVar" "option_arg" A2 R v w;
    attrs "OptionWithIO" "option_name" A3 R v w;
    attrs "OptionWithIO" "option_arg" A4 R v w;
    repeat match goal with
    | H : val_rel m ?a ?b |- context [view_val h' ?b] => rewrite (view_val_rel a b H)
    end;
    repeat match goal with
    | H : val_rel m ?x ?y |- context [match ?x with _ => _ end] => destruct x; refcase
    end; auto.
  Qed.
  Lemma views_rel A (view : heap -> hval -> option A) v w l :
    (forall a b, val_rel m a b -> view h' b = view h a) ->
    val_rel m v w -> views view h v l -> views view h' w l.
  Proof.
    intros F R (a & vs & -> & E & Q). cbn in R. destruct (memo_get m a) as [b|] eqn:Em; [|contradiction].
    subst w. destruct (D _ _ Em) as (o & ws & A1 & B1 & C1). rewrite E in A1. injection A1 as <-. cbn in *.
    exists b, ws. split; [auto|]. split; [auto|]. clear -F C1 Q. revert ws C1.
    induction Q; intros ws C; inversion_clear C; constructor; auto. now rewrite (F _ _ H0).
  Qed.
  Lemma views_dict_rel v w am : val_rel m v w -> views_dict h v am -> views_dict h' w am.
  Proof.
    intros R (a & es & -> & E & Q). cbn in R. destruct (memo_get m a) as [b|] eqn:Em; [|contradiction].
    subst w. destruct (D _ _ Em) as (o & ws & A1 & B1 & C1). rewrite E in A1. injection A1 as <-. cbn in *.
    exists b, (combine (map fst es) ws). split; [auto|]. split; [auto|]. intros k. specialize (Q k).
    assert (T := assoc_z_combine m es k ws C1).
    destruct (assoc_z es k) as [x|], (assoc_z (combine (map fst es) ws) k) as [y|]; cbn in T; try contradiction; auto.
    destruct Q as (acc & Q1 & Q2). exists acc. split; auto. now rewrite (view_access_rel x y T).
  Qed.
  Lemma views_invocation_rel v w c : val_rel m v w -> views_invocation h v c -> views_invocation h' w c.
  Proof.
    intros R (a & cls & attrs & fl & ol & i & o & am & -> & E & Cl & E1 & E2 & V2 & E3 & V3 & E4 & V4 & E5 & V5 & E6 & V6).
    cbn in R. destruct (memo_get m a) as [b|] eqn:Em; [|contradiction].
    subst w. destruct (D _ _ Em) as (ob & ws & A1 & B1 & C1). rewrite E in A1. injection A1 as <-. cbn in *.
    assert (T := fun k => assoc_s_combine m attrs k ws C1).
    assert (T1 := T "cmd_name"). rewrite E1 in T1.
    assert (T2 := T "flag_option_list"). rewrite E2 in T2.
    assert (T3 := T "operand_list"). rewrite E3 in T3.
    assert (T4 := T "implicit_use_of_streaming_input"). rewrite E4 in T4.
    assert (T5 := T "implicit_use_of_streaming_output"). rewrite E5 in T5.
    assert (T6 := T "access_map"). rewrite E6 in T6. clear T.
    destruct (assoc_s (combine (map fst attrs) ws) "cmd_name") as [x1|] eqn:F1; cbn in T1; [subst x1|contradiction].
    destruct (assoc_s (combine (map fst attrs) ws) "flag_option_list") as [x2|] eqn:F2; cbn [opt_rel] in T2; [|contradiction].
    destruct (assoc_s (combine (map fst attrs) ws) "operand_list") as [x3|] eqn:F3; cbn [opt_rel] in T3; [|contradiction].
    destruct (assoc_s (combine (map fst attrs) ws) "implicit_use_of_streaming_input") as [x4|] eqn:F4; cbn [opt_rel] in T4; [|contradiction].
    destruct (assoc_s (combine (map fst attrs) ws) "implicit_use_of_streaming_output") as [x5|] eqn:F5; cbn [opt_rel] in T5; [|contradiction].
    destruct (assoc_s (combine (map fst attrs) ws) "access_map") as [x6|] eqn:F6; cbn [opt_rel] in T6; [|contradiction].
    exists b, cls, (combine (map fst attrs) ws), x2, x3, x4, x5, x6.
    split; [reflexivity|]. split; [exact B1|]. split; [exact Cl|]. split; [exact F1|].
    split; [exact F2|]. split; [eapply views_rel; eauto; apply view_flag_rel|].
    split; [exact F3|]. split; [eapply views_rel; eauto; apply view_val_rel|].
    split; [exact F4|]. split; [rewrite <- V4; now apply view_val_rel|].
    split; [exact F5|]. split; [rewrite <- V5; now apply view_val_rel|].
    split; [exact F6|]. eapply views_dict_rel; eauto.
  Qed.
End Views.

(** ** Views and unchanged objects *)
Definition leaf_class (cls : string) : Prop :=
  In cls ["AccessKind"; "ArgStringType"; "FileNameWithIOInfo"; "StdDescriptorWithIOInfo"; "Flag";
          "OptionWithIOVar"; "OptionWithIO"].
(** The objects that are never overwritten keep their values. *)
Definition stable (h h' : heap) : Prop :=
  forall l cls attrs, nth_error h l = Some (OInst cls attrs) -> leaf_class cls ->
                      nth_error h' l = Some (OInst cls attrs).
Lemma unchanged_stable h h' : unchanged h h' -> stable h h'.
Proof. intros U l c a E _. rewrite U; auto. apply nth_error_Some. congruence. Qed.
Lemma stable_refl h : stable h h.
Proof. intros l c a E _; auto. Qed.
Lemma stable_trans h1 h2 h3 : stable h1 h2 -> stable h2 h3 -> stable h1 h3.
Proof. intros A B l c a E H. apply B; auto. Qed.
Lemma attr_stable h h' x c n v : stable h h' -> leaf_class c -> attr h x c n = Some v -> attr h' x c n = Some v.
Proof.
  intros S L. destruct x; cbn; try discriminate. destruct (nth_error h l) as [[| |cls attrs]|] eqn:E; try discriminate.
  destruct (String.eqb_spec cls c) as [->|]; [|discriminate]. rewrite (S _ _ _ E L), String.eqb_refl. auto.
Qed.
Ltac leaf := unfold leaf_class; cbn; tauto.
Lemma view_access_stable h h' x a : stable h h' -> view_access h x = Some a -> view_access h' x = Some a.
Proof.
  unfold view_access. intros S. destruct (attr h x "AccessKind" "kind") as [v|] eqn:E; [|discriminate].
  rewrite (attr_stable h h' x _ _ v S ltac:(leaf) E). auto.
Qed.
Lemma attr_class h l c n v : attr h (HRef l) c n = Some v ->
  exists attrs, nth_error h l = Some (OInst c attrs) /\ assoc_s attrs n = Some v.
Proof.
  cbn. destruct (nth_error h l) as [[| |cls attrs]|]; try discriminate.
  destruct (String.eqb_spec cls c) as [->|]; [|discriminate]. eauto.
Qed.
Lemma attr_other h l c c' n attrs : nth_error h l = Some (OInst c attrs) -> c <> c' -> attr h (HRef l) c' n = None.
Proof. intros E N. cbn. rewrite E. now destruct (String.eqb_spec c c'). Qed.

(** The three forms of an argument on the heap *)
Inductive val_form (h : heap) : hval -> pyval -> Prop :=
| vf_none : val_form h HNone PNone
| vf_int v : val_form h (HInt v) (PVar v)
| vf_arg l attrs s : nth_error h l = Some (OInst "ArgStringType" attrs) -> assoc_s attrs "name" = Some (HStr s) ->
    val_form h (HRef l) (PArg s)
| vf_file l attrs s r a : nth_error h l = Some (OInst "FileNameWithIOInfo" attrs) ->
    assoc_s attrs "name" = Some (HStr s) -> assoc_s attrs "access" = Some r -> view_access h r = Some a ->
    val_form h (HRef l) (PRes (mkRes (FileName s) a))
| vf_std l attrs s r a : nth_error h l = Some (OInst "StdDescriptorWithIOInfo" attrs) ->
    assoc_s attrs "name" = Some (HStd s) -> assoc_s attrs "access" = Some r -> view_access h r = Some a ->
    val_form h (HRef l) (PRes (mkRes (StdDescriptor s) a)).
Lemma view_val_form h x p : view_val h x = Some p <-> val_form h x p.
Proof.
  split.
  - destruct x; cbn [view_val]; try discriminate; intros H.
    + injection H as <-; constructor.
    + injection H as <-; constructor.
    + destruct (attr h (HRef l) "ArgStringType" "name") as [v|] eqn:E.
      { apply attr_class in E as (attrs & E1 & E2). destruct v; try discriminate. injection H as <-.
        econstructor; eauto. }
      destruct (attr h (HRef l) "FileNameWithIOInfo" "name") as [v|] eqn:E1.
      * apply attr_class in E1 as (attrs & E1 & E2).
        rewrite (attr_other h l _ "StdDescriptorWithIOInfo" "name" attrs E1 ltac:(discriminate)) in H.
        destruct v; try discriminate.
        destruct (attr h (HRef l) "FileNameWithIOInfo" "access") as [r|] eqn:E3; [|discriminate].
        apply attr_class in E3 as (attrs' & E3 & E4). assert (attrs' = attrs) by congruence. subst.
        destruct (view_access h r) eqn:E5; [|discriminate]. injection H as <-. eapply vf_file; eauto.
      * destruct (attr h (HRef l) "StdDescriptorWithIOInfo" "name") as [v|] eqn:E2; [|discriminate].
        destruct v; try discriminate. apply attr_class in E2 as (attrs & E2 & E2').
        destruct (attr h (HRef l) "StdDescriptorWithIOInfo" "access") as [r|] eqn:E3; [|discriminate].
        apply attr_class in E3 as (attrs' & E3 & E4). assert (attrs' = attrs) by congruence. subst.
        destruct (view_access h r) eqn:E5; [|discriminate]. injection H as <-. eapply vf_std; eauto.
  - intros [| |l attrs s E1 E2|l attrs s r a E1 E2 E3 E4|l attrs s r a E1 E2 E3 E4]; try reflexivity; cbn [view_val].
    + cbn. now rewrite E1, String.eqb_refl, E2.
    + rewrite (attr_other h l _ "ArgStringType" "name" attrs E1 ltac:(discriminate)).
      assert (A : forall n, attr h (HRef l) "FileNameWithIOInfo" n = assoc_s attrs n) by (intros n; cbn; now rewrite E1, String.eqb_refl).
      now rewrite !A, E2, E3, E4.
    + rewrite (attr_other h l _ "ArgStringType" "name" attrs E1 ltac:(discriminate)).
      rewrite (attr_other h l _ "FileNameWithIOInfo" "name" attrs E1 ltac:(discriminate)).
      assert (A : forall n, attr h (HRef l) "StdDescriptorWithIOInfo" n = assoc_s attrs n) by (intros n; cbn; now rewrite E1, String.eqb_refl).
      now rewrite !A, E2, E3, E4.
Qed.
Inductive flag_form (h : heap) : hval -> flag_el -> Prop :=
| ff_flag l attrs n : nth_error h l = Some (OInst "Flag" attrs) -> assoc_s attrs "flag_name" = Some (HStr n) ->
    flag_form h (HRef l) (FFlag n)
| ff_var l attrs n y p : nth_error h l = Some (OInst "OptionWithIOVar" attrs) ->
    assoc_s attrs "option_name" = Some (HStr n) -> assoc_s attrs "option_arg" = Some y -> view_val h y = Some p ->
    flag_form h (HRef l) (FOptVar n p)
| ff_io l attrs n y p : nth_error h l = Some (OInst "OptionWithIO" attrs) ->
    assoc_s attrs "option_name" = Some (HStr n) -> assoc_s attrs "option_arg" = Some y -> view_val h y = Some p ->
    flag_form h (HRef l) (FOptIO n p).
Lemma view_flag_form h x f : view_flag h x = Some f <-> flag_form h x f.
Proof.
  split.
  - destruct x; try discriminate. unfold view_flag. intros H.
    destruct (attr h (HRef l) "Flag" "flag_name") as [v|] eqn:E.
    { apply attr_class in E as (attrs & E1 & E2). destruct v; try discriminate. injection H as <-.
      econstructor; eauto. }
    destruct (attr h (HRef l) "OptionWithIOVar" "option_name") as [v|] eqn:E1.
    + apply attr_class in E1 as (attrs & E1 & E2).
      rewrite (attr_other h l _ "OptionWithIO" "option_name" attrs E1 ltac:(discriminate)) in H.
      destruct v; try discriminate.
      destruct (attr h (HRef l) "OptionWithIOVar" "option_arg") as [r|] eqn:E3; [|discriminate].
      apply attr_class in E3 as (attrs' & E3 & E4). assert (attrs' = attrs) by congruence. subst.
      destruct (view_val h r) eqn:E5; [|discriminate]. injection H as <-. eapply ff_var; eauto.
    + destruct (attr h (HRef l) "OptionWithIO" "option_name") as [v|] eqn:E2; [|discriminate].
      destruct v; try discriminate. apply attr_class in E2 as (attrs & E2 & E2').
      destruct (attr h (HRef l) "OptionWithIO" "option_arg") as [r|] eqn:E3; [|discriminate].
      apply attr_class in E3 as (attrs' & E3 & E4). assert (attrs' = attrs) by congruence. subst.
      destruct (view_val h r) eqn:E5; [|discriminate]. injection H as <-. eapply ff_io; eauto.
  - intros [l attrs n E1 E2|l attrs n y p E1 E2 E3 E4|l attrs n y p E1 E2 E3 E4]; unfold view_flag.
    + cbn. now rewrite E1, String.eqb_refl, E2.
    + rewrite (attr_other h l _ "Flag" "flag_name" attrs E1 ltac:(discriminate)).
      assert (A : forall n, attr h (HRef l) "OptionWithIOVar" n = assoc_s attrs n) by (intros k; cbn; now rewrite E1, String.eqb_refl).
      now rewrite !A, E2, E3, E4.
    + rewrite (attr_other h l _ "Flag" "flag_name" attrs E1 ltac:(discriminate)).
      rewrite (attr_other h l _ "OptionWithIOVar" "option_name" attrs E1 ltac:(discriminate)).
      assert (A : forall n, attr h (HRef l) "OptionWithIO" n = assoc_s attrs n) by (intros k; cbn; now rewrite E1, String.eqb_refl).
      now rewrite !A, E2, E3, E4.
Qed.
Lemma view_val_stable h h' x p : stable h h' -> view_val h x = Some p -> view_val h' x = Some p.
Proof.
  rewrite !view_val_form. intros S [| |l attrs s E1 E2|l attrs s r a E1 E2 E3 E4|l attrs s r a E1 E2 E3 E4].
  - constructor.
  - constructor.
  - eapply vf_arg; [eapply S; eauto; leaf|auto].
  - eapply vf_file; eauto; [eapply S; eauto; leaf|eapply view_access_stable; eauto].
  - eapply vf_std; eauto; [eapply S; eauto; leaf|eapply view_access_stable; eauto].
Qed.
Lemma view_flag_stable h h' x f : stable h h' -> view_flag h x = Some f -> view_flag h' x = Some f.
Proof.
  rewrite !view_flag_form. intros S [l attrs n E1 E2|l attrs n y p E1 E2 E3 E4|l attrs n y p E1 E2 E3 E4].
  - eapply ff_flag; [eapply S; eauto; leaf|auto].
  - eapply ff_var; eauto; [eapply S; eauto; leaf|eapply view_val_stable; eauto].
  - eapply ff_io; eauto; [eapply S; eauto; leaf|eapply view_val_stable; eauto].
Qed.
Lemma Forall2_stable {A} (view : heap -> hval -> option A) h h' vs l :
  (forall x p, view h x = Some p -> view h' x = Some p) ->
  Forall2 (fun v p => view h v = Some p) vs l -> Forall2 (fun v p => view h' v = Some p) vs l.
Proof. intros F. induction 1; constructor; auto. Qed.
Lemma views_unchanged {A} (view : heap -> hval -> option A) h h' x l :
  (forall x p, view h x = Some p -> view h' x = Some p) -> unchanged h h' -> views view h x l -> views view h' x l.
Proof.
  intros F U (a & vs & -> & E & Q). exists a, vs. split; [auto|]. split.
  - rewrite U; auto. apply nth_error_Some. congruence.
  - eapply Forall2_stable; eauto.
Qed.
Lemma views_dict_unchanged h h' x m : unchanged h h' -> views_dict h x m -> views_dict h' x m.
Proof.
  intros U (a & es & -> & E & Q). exists a, es. split; [auto|]. split.
  - rewrite U; auto. apply nth_error_Some. congruence.
  - intros k. specialize (Q k). destruct (assoc_z es k); auto. destruct Q as (acc & Q1 & Q2).
    exists acc. split; auto. eapply view_access_stable; eauto. now apply unchanged_stable.
Qed.
Lemma views_invocation_unchanged h h' x c : unchanged h h' -> views_invocation h x c -> views_invocation h' x c.
Proof.
  intros U (a & cls & attrs & fl & ol & i & o & am & -> & E & Cl & E1 & E2 & V2 & E3 & V3 & E4 & V4 & E5 & V5 & E6 & V6).
  assert (S := unchanged_stable _ _ U).
  exists a, cls, attrs, fl, ol, i, o, am. split; [reflexivity|].
  split; [rewrite U; auto; apply nth_error_Some; congruence|]. split; [exact Cl|]. split; [exact E1|].
  split; [exact E2|]. split; [eapply views_unchanged; [|exact U|exact V2]; intros ? ? Hv; eapply view_flag_stable; [exact S|exact Hv]|].
  split; [exact E3|]. split; [eapply views_unchanged; [|exact U|exact V3]; intros ? ? Hv; eapply view_val_stable; [exact S|exact Hv]|].
  split; [exact E4|]. split; [eapply view_val_stable; eauto|].
  split; [exact E5|]. split; [eapply view_val_stable; eauto|].
  split; [exact E6|]. eapply views_dict_unchanged; eauto.
Qed.
