(** * Mappers and aggregators: what is written and what is shared *)
From Coq Require Import Lia.
Require Import Verif.PyBase Verif.JsonData Verif.Parser Verif.Access Verif.IOInfo Verif.IOVars
  Verif.Transformers Verif.ParaTypes Verif.Heap Verif.SpecHeap Verif.HeapFacts.

Ltac bind := apply wp_bind.

Lemma inv_start strict h : closed h -> inv strict h h.
Proof.
  intros C. split; [intros l _; reflexivity|]. split; [auto|]. intros l o E. split.
  - apply C. eapply nth_error_In; eauto.
  - intros L. rewrite (proj2 (nth_error_None h l)) in E by auto. discriminate.
Qed.
Lemma inv_closed strict h0 h : inv strict h0 h -> closed h.
Proof.
  intros (_ & _ & I) o H. apply In_nth_error in H as (l & E). now apply I in E.
Qed.

(** A value all of whose objects are newer than [h0] *)
Definition newly (h0 h : heap) (v : hval) : Prop :=
  exists h1, length h0 <= length h1 /\ inv true h1 h /\ fresh h1 h v.

Lemma newly_reaches h0 h v : newly h0 h v -> forall l, reaches h v l -> length h0 <= l.
Proof.
  intros (h1 & L & (U & L' & I) & (F & F')) l R. cut (length h1 <= l); [lia|]. clear L.
  revert F F'. induction R; intros V W; cbn in *; auto.
  apply I in H as (H1 & H2). destruct (H2 W) as (H3 & _). specialize (H3 eq_refl).
  rewrite Forall_forall in H1, H3. apply IHR; [now apply H1|now apply H3].
Qed.

Lemma valid_transformer_mono h h' : length h <= length h' -> forall t, valid_transformer h t -> valid_transformer h' t.
Proof.
  intros L. fix IH 2. intros t [| | | | | |]; try constructor; try (eapply valid_mono; eauto; fail).
  induction H; constructor; auto.
Qed.
Lemma wp_transform h0 : forall t h x,
  valid_transformer h t -> good false h0 h x -> wp false h0 (transform_h t x) h (fun h' v => good false h0 h' v).
Proof.
  assert (G : forall h v, valid h v -> good false h0 h v) by (intros h v V; split; [auto|discriminate]).
  fix IH 1. intros t h x V X. destruct t; cbn [transform_h].
  - now apply wp_ret.
  - inversion_clear V. bind. eapply wp_mono; [|now apply wp_items, G]. intros h' l _ (-> & Gl) _.
    bind. eapply wp_mono; [|now apply wp_items]. intros h' l0 _ (-> & Gl0) _.
    intros I.
    assert (W : wp false h0 (alloc (OList (l0 ++ filter (fun y => negb (existsb (fun z => same_flag h z y) l0)) l))) h
                  (fun h' v => good false h0 h' v)).
    { eapply wp_mono; [|apply wp_alloc; [|exact Logic.I]]; [intros; now apply fresh_good|].
      cbn. apply Forall_app; split; auto. apply Forall_forall. intros y Hy. apply filter_In in Hy as (Hy & _).
      rewrite Forall_forall in Gl; auto. }
    exact (W I).
  - bind. eapply wp_mono; [|now apply wp_items]. intros h' l0 _ (-> & Gl0) _.
    bind. eapply wp_mono; [|now apply wp_filter_names]. intros h' r _ (-> & R) _.
    eapply wp_mono; [|apply wp_alloc; [exact R|exact Logic.I]]. intros; now apply fresh_good.
  - bind. eapply wp_mono; [|now apply wp_items]. intros h' l0 _ (-> & Gl0) _.
    bind. eapply wp_mono; [|now apply wp_filter_names]. intros h' r _ (-> & R) _.
    eapply wp_mono; [|apply wp_alloc; [exact R|exact Logic.I]]. intros; now apply fresh_good.
  - eapply wp_mono; [|apply wp_alloc; [constructor|exact Logic.I]]. intros; now apply fresh_good.
  - inversion_clear V. apply wp_ret. auto.
  - assert (V' : Forall (valid_transformer h) list_transformers) by (inversion V; auto).
    clear V. revert h x V' X. induction list_transformers as [|t ts IHts]; intros h x V X.
    + now apply wp_ret.
    + apply Forall_cons_iff in V as (V1 & V2). bind. eapply wp_mono; [|apply IH; auto].
      intros h1 y L1 Y _. apply IHts; auto. eapply Forall_impl; [|exact V2].
      intros a; now apply valid_transformer_mono.
Qed.

(** The constructor: everything is new *)
Lemma wp_new_invocation_newly h0 h cls k cmd fl ol i o am :
  Forall (valid h) [fl; ol; i; o; am] ->
  wp false h0 (new_invocation cls k cmd fl ol i o am) h (fun h' v => fresh h0 h' v /\ newly h0 h' v).
Proof.
  intros V I. assert (A := wp_new_invocation false h0 h cls k cmd fl ol i o am V I).
  assert (B := wp_new_invocation true h h cls k cmd fl ol i o am V (inv_start _ _ (inv_closed _ _ _ I))).
  destruct (new_invocation cls k cmd fl ol i o am h) as (h' & [v|e]); auto.
  destruct A as (A1 & A2 & A3), B as (B1 & B2 & B3). split; [auto|]. split; [auto|]. split; [auto|].
  exists h. split; [apply I|]. auto.
Qed.

Ltac validity := match goal with
  | H : good _ _ ?h ?v |- valid ?h ?v => apply H
  | H : fresh _ ?h ?v |- valid ?h ?v => apply H
  | H : good _ _ _ ?v |- valid _ ?v => eapply valid_mono; [|apply H]; lia
  | H : fresh _ _ ?v |- valid _ ?v => eapply valid_mono; [|apply H]; lia
  | |- _ => cbn; auto; lia
  end.
Lemma good_false h0 h v : valid h v -> good false h0 h v.
Proof. intros V; split; [auto|discriminate]. Qed.

Lemma wp_base_mapper h0 s orig h :
  valid h orig -> valid_transformer h (hms_transformer s) ->
  wp false h0 (base_mapper_h s orig) h (fun h' v => fresh h0 h' v /\ newly h0 h' v).
Proof.
  intros V T. assert (G := good_false h0 h orig V). unfold base_mapper_h.
  bind. eapply wp_mono; [|now apply wp_get_cmd_name]. intros h' cmd _ -> _.
  bind. eapply wp_mono; [|now apply wp_get_attr]. intros h' fl _ (-> & Gfl & _) _.
  bind. eapply wp_mono with (Q := fun h' v => good false h0 h' v).
  2:{ destruct (hms_kind s); [apply wp_ret; auto|now apply wp_transform]. }
  intros h1 fl' L1 Gfl' _. assert (G1 : good false h0 h1 orig) by (eapply good_mono; eauto).
  bind. eapply wp_mono; [|now apply wp_get_attr]. intros h' ol _ (-> & Gol & _) _.
  bind. eapply wp_mono; [|now apply wp_get_attr]. intros h' i _ (-> & Gi & _) _.
  bind. eapply wp_mono; [|now apply wp_get_attr]. intros h' o _ (-> & Go & _) _.
  bind. eapply wp_mono; [|now apply wp_get_attr]. intros h' am _ (-> & Gam & _) _.
  apply wp_new_invocation_newly. repeat (constructor; [validity|]). constructor.
Qed.

(** The rest of [get_mapper]: only the mapper is written *)
Definition rest_mapper (mapper : hval) (input_from output_to : Z) (aux : list hval) : hm (option hval) :=
  match aux with
  | [] =>
      run! l1 := alloc (OList [HInt input_from]) in
      run! l2 := alloc (OList [HInt output_to]) in
      run! _ := substitute_inputs_and_outputs_h mapper l1 l2 in
      hret (Some mapper)
  | _ =>
      run! ol := get_attr mapper "operand_list" in
      run! ops := items ol in
      run! _ := hiter (fun x => match x with
                                | HInt v => run! d := get_attr mapper "access_map" in
                                            run! _ := dict_pop d v in hret tt
                                | _ => hthrow AssertionError
                                end) ops in
      run! l := alloc (OList (HInt input_from :: HInt output_to :: aux)) in
      run! _ := set_attr mapper "operand_list" l in
      run! d := get_attr mapper "access_map" in
      run! _ := add_accesses d STREAM_INPUT [HInt input_from] in
      run! _ := add_accesses d STREAM_OUTPUT [HInt output_to] in
      run! _ := add_accesses d STREAM_OUTPUT aux in
      run! _ := set_attr mapper "implicit_use_of_streaming_output" HNone in
      run! _ := set_attr mapper "implicit_use_of_streaming_input" HNone in
      hret (Some mapper)
  end.
Lemma get_mapper_rest s orig input_from output_to aux_output_tos :
  get_mapper_h s orig input_from output_to aux_output_tos =
  if negb (hms_is_implemented s) then hret None
  else run! mapper := base_mapper_h s orig in
       run! aux := items aux_output_tos in
       rest_mapper mapper input_from output_to aux.
Proof. reflexivity. Qed.

Lemma wp_rest_mapper strict h0 mapper input_from output_to aux h :
  fresh h0 h mapper -> Forall (good strict h0 h) aux ->
  wp strict h0 (rest_mapper mapper input_from output_to aux) h
     (fun h' r => r = Some mapper).
Proof.
  intros F A. assert (A' : aux = [] \/ aux <> []) by (destruct aux; [left|right]; congruence).
  unfold rest_mapper. destruct A' as [->|N].
  - bind. eapply wp_mono; [|apply wp_alloc; [repeat constructor|exact I]]. intros h1 l1 L1 F1 _.
    bind. eapply wp_mono; [|apply wp_alloc; [repeat constructor|exact I]]. intros h2 l2 L2 F2 _.
    bind. eapply wp_mono with (Q := fun _ _ => True).
    + intros h3 _ L3 _ _. now apply wp_ret.
    + unfold substitute_inputs_and_outputs_h. bind. eapply wp_mono; [|apply wp_substitute].
      * intros h3 _ L3 _ _. apply wp_substitute; eapply fresh_mono; try exact F; try exact F2; lia.
      * eapply fresh_mono; [|exact F]; lia.
      * eapply fresh_mono; [|exact F1]; lia.
  - assert (E : match aux with [] => False | _ => True end) by (destruct aux; auto).
    destruct aux as [|a aux']; [contradiction|]. remember (a :: aux') as aux eqn:Eaux.
    bind. eapply wp_mono; [|now apply wp_get_attr, fresh_good]. intros h' ol _ (-> & Gol & _) _.
    bind. eapply wp_mono; [|now apply wp_items]. intros h' ops _ (-> & Gops) _.
    bind. eapply wp_mono.
    2:{ apply wp_hiter with (P := fun h' _ => length h <= length h').
        - intros; lia.
        - intros h' x L. assert (F' : fresh h0 h' mapper) by (eapply fresh_mono; eauto).
          destruct x; try apply wp_throw.
          bind. eapply wp_mono; [|now apply wp_access_map]. intros h'' d _ (-> & Fd) _.
          bind. eapply wp_mono; [|now apply wp_dict_pop]. intros h3 x L3 X _. now apply wp_ret.
        - apply Forall_forall; auto. }
    intros h1 _ L1 _ _.
    bind. eapply wp_mono; [|apply wp_alloc; [|exact I]].
    2:{ cbn. constructor; [split; cbn; auto|]. constructor; [split; cbn; auto|].
        eapply Forall_good_mono; eauto. }
    intros h2 l L2 Fl _. assert (F2 : fresh h0 h2 mapper) by (eapply fresh_mono; [|exact F]; lia).
    bind. eapply wp_mono; [|apply wp_set_attr; [exact F2|now apply fresh_good|discriminate]].
    intros h3 _ L3 _ _. assert (F3 : fresh h0 h3 mapper) by (eapply fresh_mono; [|exact F]; lia).
    bind. eapply wp_mono; [|now apply wp_access_map]. intros h' d _ (-> & Fd) _.
    bind. eapply wp_mono; [|apply wp_add_accesses; exact Fd]. intros h4 _ L4 _ _.
    assert (Fd4 : fresh h0 h4 d) by (eapply fresh_mono; eauto).
    bind. eapply wp_mono; [|apply wp_add_accesses; exact Fd4]. intros h5 _ L5 _ _.
    assert (Fd5 : fresh h0 h5 d) by (eapply fresh_mono; eauto).
    bind. eapply wp_mono; [|apply wp_add_accesses; exact Fd5]. intros h6 _ L6 _ _.
    assert (F6 : fresh h0 h6 mapper) by (eapply fresh_mono; [|exact F]; lia).
    bind. eapply wp_mono; [|apply wp_set_attr; [exact F6|split; cbn; auto|discriminate]].
    intros h7 _ L7 _ _. assert (F7 : fresh h0 h7 mapper) by (eapply fresh_mono; [|exact F]; lia).
    bind. eapply wp_mono; [|apply wp_set_attr; [exact F7|split; cbn; auto|discriminate]].
    intros h8 _ L8 _ _. now apply wp_ret.
Qed.

Theorem get_mapper_frame s orig input_from output_to aux h h' r :
  closed h -> valid h orig -> valid h aux -> valid_transformer h (hms_transformer s) ->
  get_mapper_h s orig input_from output_to aux h = (h', r) ->
  unchanged h h' /\ length h <= length h' /\ closed h'.
Proof.
  intros C V A T E. assert (W : wp false h (get_mapper_h s orig input_from output_to aux) h (fun _ _ => True)).
  { rewrite get_mapper_rest. destruct (hms_is_implemented s); cbn [negb]; [|now apply wp_ret].
    bind. eapply wp_mono; [|now apply wp_base_mapper]. intros h1 m L1 (F & _) _.
    bind. eapply wp_mono; [|apply wp_items, good_false; eapply valid_mono; eauto]. intros h2 l _ (-> & Gl) _.
    eapply wp_mono; [|now apply wp_rest_mapper]. auto. }
  specialize (W (inv_start _ _ C)). rewrite E in W.
  destruct r; destruct W as (I & W); (split; [apply I|split; [apply W|eapply inv_closed; eauto]]).
Qed.

Lemma items_variables h x l : variables h x l -> items x h = (h, Ok (map HInt l)).
Proof. intros (a & -> & E). unfold items, hbind, get_obj. now rewrite E. Qed.
Lemma variables_unchanged h h' x l : unchanged h h' -> variables h x l -> variables h' x l.
Proof.
  intros U (a & -> & E). exists a. split; auto. rewrite U; auto. apply nth_error_Some. congruence.
Qed.
Lemma good_ints strict h0 h l : Forall (good strict h0 h) (map HInt l).
Proof. apply Forall_map, Forall_forall. intros; split; cbn; auto. Qed.

Theorem get_mapper_newly s orig input_from output_to aux l h h' m :
  closed h -> valid h orig -> variables h aux l -> valid_transformer h (hms_transformer s) ->
  get_mapper_h s orig input_from output_to aux h = (h', Ok (Some m)) -> newly h h' m.
Proof.
  intros C V A T E. rewrite get_mapper_rest in E. destruct (hms_is_implemented s); [|discriminate].
  cbn [negb] in E. assert (B := wp_base_mapper h s orig h V T (inv_start _ _ C)).
  unfold hbind at 1 in E. destruct (base_mapper_h s orig h) as (h2 & [mp|e]); [|discriminate].
  destruct B as (I2 & L2 & F2 & (h1 & L1 & I1 & F1)).
  unfold hbind in E. rewrite (items_variables h2 aux l) in E.
  2:{ eapply variables_unchanged; [|exact A]. apply I2. }
  assert (R := wp_rest_mapper true h1 mp input_from output_to (map HInt l) h2 F1 (good_ints _ _ _ _) I1).
  rewrite E in R. destruct R as (I3 & L3 & R). injection R as ->.
  exists h1. split; [auto|]. split; [auto|]. eapply fresh_mono; eauto.
Qed.

(** ** Aggregators *)
Lemma wp_make_aggregator_from h0 c k h :
  valid h c -> wp false h0 (make_aggregator_from c k) h (fun h' v => fresh h0 h' v /\ newly h0 h' v).
Proof.
  intros V. assert (G := good_false h0 h c V). unfold make_aggregator_from.
  bind. eapply wp_mono; [|now apply wp_get_cmd_name]. intros h' cmd _ -> _.
  bind. eapply wp_mono; [|now apply wp_get_attr]. intros h' fl _ (-> & Gfl & _) _.
  bind. eapply wp_mono; [|now apply wp_get_attr]. intros h' ol _ (-> & Gol & _) _.
  bind. eapply wp_mono; [|now apply wp_get_attr]. intros h' i _ (-> & Gi & _) _.
  bind. eapply wp_mono; [|now apply wp_get_attr]. intros h' o _ (-> & Go & _) _.
  bind. eapply wp_mono; [|now apply wp_get_attr]. intros h' am _ (-> & Gam & _) _.
  apply wp_new_invocation_newly. repeat (constructor; [validity|]). constructor.
Qed.
Lemma wp_make_cat h0 x o h : valid h x -> wp false h0 (make_cat_h x o) h (fun h' v => valid h' v).
Proof.
  intros V. unfold make_cat_h.
  bind. eapply wp_mono; [|now apply wp_items, good_false]. intros h' l _ (-> & Gl) _.
  bind. eapply wp_mono; [|apply wp_alloc; [constructor|exact I]]. intros h1 d L1 Fd _.
  bind. eapply wp_mono; [|apply wp_add_accesses; exact Fd]. intros h2 _ L2 _ _.
  bind. eapply wp_mono; [|apply wp_add_accesses; eapply fresh_mono; eauto]. intros h3 _ L3 _ _.
  bind. eapply wp_mono; [|apply wp_alloc; [constructor|exact I]]. intros h4 fl L4 Ffl _.
  eapply wp_mono; [|apply wp_new_invocation].
  - intros h5 v L5 Fv. apply Fv.
  - constructor; [apply Ffl|]. constructor; [eapply valid_mono; [|exact V]; lia|].
    constructor; [cbn; auto|]. constructor; [cbn; auto|].
    constructor; [|constructor]. eapply valid_mono; [|apply Fd]; lia.
Qed.
Lemma wp_new_flags h0 l h : wp false h0 (new_flags l) h (fun h' v => valid h' v).
Proof.
  unfold new_flags. bind. eapply wp_mono.
  2:{ apply wp_hmap with (P := fun _ _ => True) (Q := good false h0).
      - auto.
      - intros; eapply good_mono; eauto.
      - intros h' fo _ _. destruct fo; [|apply wp_throw]. eapply wp_mono; [|apply wp_alloc].
        + intros; now apply fresh_good.
        + repeat constructor.
        + intros v E; cbn in E; discriminate.
      - apply Forall_forall; auto. }
  intros h1 fs L1 Gfs _. eapply wp_mono; [|apply wp_alloc; [exact Gfs|exact I]].
  intros h2 v _ F. apply F.
Qed.

Definition hagg_transformer (a : hagg_spec) : htransformer :=
  match a with HAggTransformer _ t _ => t | _ => HTSeq end.
Definition outcome (h0 : heap) (h : heap) (r : option hval) : Prop :=
  match r with Some v => newly h0 h v | None => True end.

Lemma wp_get_aggregator_transformer h0 k t orig x o h :
  valid h orig -> valid h x -> valid_transformer h t ->
  wp false h0 (get_aggregator_transformer_h k t orig x o) h (outcome h0).
Proof.
  intros V X T. unfold get_aggregator_transformer_h.
  bind. eapply wp_mono; [|now apply wp_items, good_false]. intros h' l _ (-> & Gl) _.
  bind. eapply wp_mono with (Q := fun h' _ => h' = h).
  2:{ destruct k; cbn; try (now apply wp_ret); apply wp_lift; auto. }
  intros h' _ _ -> _.
  bind. eapply wp_mono; [|now apply wp_deepcopy]. intros h1 agg L1 Fa _.
  bind. eapply wp_mono; [|apply wp_get_attr, good_false; eapply valid_mono; eauto]. intros h' fl _ (-> & Gfl & _) _.
  bind. eapply wp_mono; [|apply wp_transform; [eapply valid_transformer_mono; eauto|exact Gfl]].
  intros h2 fl' L2 Gfl' _. assert (Fa2 : fresh h0 h2 agg) by (eapply fresh_mono; eauto).
  bind. eapply wp_mono; [|apply wp_set_attr; [exact Fa2|exact Gfl'|discriminate]].
  intros h3 _ L3 _ _. assert (Fa3 : fresh h0 h3 agg) by (eapply fresh_mono; eauto).
  bind. eapply wp_mono; [|now apply wp_remove_streaming].
  intros h4 _ L4 _ _. assert (Fa4 : fresh h0 h4 agg) by (eapply fresh_mono; eauto).
  bind. eapply wp_mono; [|apply wp_set_attr; [exact Fa4| |discriminate]].
  2:{ apply good_false. eapply valid_mono; [|exact X]; lia. }
  intros h5 _ L5 _ _. assert (Fa5 : fresh h0 h5 agg) by (eapply fresh_mono; eauto).
  bind. eapply wp_mono.
  2:{ apply wp_hiter with (P := fun h' _ => length h5 <= length h').
      - intros; lia.
      - intros h' y L. assert (F' : fresh h0 h' agg) by (eapply fresh_mono; eauto).
        bind. eapply wp_mono; [|apply wp_as_int]. intros h'' v _ (-> & _) _.
        bind. eapply wp_mono; [|now apply wp_access_map]. intros h'' d _ (-> & Fd) _.
        bind. eapply wp_mono; [|now apply wp_dict_has, fresh_good]. intros h'' b _ -> _.
        destruct b; [apply wp_throw|]. bind. eapply wp_mono; [|apply wp_new_access].
        intros h6 r L6 R _. apply wp_dict_set; [eapply fresh_mono; eauto|now apply fresh_good].
      - apply Forall_forall; auto. }
  intros h6 _ L6 _ _. assert (Fa6 : fresh h0 h6 agg) by (eapply fresh_mono; eauto).
  bind. eapply wp_mono; [|now apply wp_get_attr, fresh_good]. intros h' ov _ (-> & _ & _) _.
  bind. eapply wp_mono; [|now apply wp_replace_var]. intros h7 _ L7 _ _.
  bind. eapply wp_mono; [|apply wp_make_aggregator_from; eapply valid_mono; [|apply Fa6]; lia].
  intros h8 a L8 (_ & W) _. now apply wp_ret.
Qed.
Lemma wp_get_aggregator_string h0 dir k s x o h :
  valid h x -> wp false h0 (get_aggregator_string_h dir k s x o) h (outcome h0).
Proof.
  intros X. unfold get_aggregator_string_h.
  bind. eapply wp_mono; [|apply wp_lift with (Q := fun h' _ => h' = h); auto]. intros h' c _ -> _.
  bind. eapply wp_mono; [|apply wp_new_flags]. intros h1 fl L1 Vfl _.
  bind. eapply wp_mono; [|apply wp_items, good_false; eapply valid_mono; eauto]. intros h' l _ (-> & Gl) _.
  bind. eapply wp_mono; [|apply wp_alloc; [constructor|exact I]]. intros h2 d L2 Fd _.
  bind. eapply wp_mono; [|apply wp_add_accesses; exact Fd]. intros h3 _ L3 _ _.
  bind. eapply wp_mono; [|apply wp_add_accesses; eapply fresh_mono; eauto]. intros h4 _ L4 _ _.
  bind. eapply wp_mono; [|apply wp_new_invocation_newly].
  2:{ constructor; [eapply valid_mono; [|exact Vfl]; lia|]. constructor; [eapply valid_mono; [|exact X]; lia|].
      constructor; [cbn; auto|]. constructor; [cbn; auto|].
      constructor; [|constructor]. eapply valid_mono; [|apply Fd]; lia. }
  intros h5 a L5 (_ & W) _.
  assert (R : wp false h0 (hret (Some a)) h5 (outcome h0)) by now apply wp_ret.
  destruct k; auto; bind; (eapply wp_mono; [|apply wp_lift with (Q := fun h' _ => h' = h5); auto]);
    intros h' u _ -> _; [apply wp_throw|exact R].
Qed.
Lemma wp_get_aggregator h0 dir a orig x o h :
  valid h orig -> valid h x -> valid_transformer h (hagg_transformer a) ->
  wp false h0 (get_aggregator_h dir a orig x o) h (outcome h0).
Proof.
  intros V X T. assert (Z : wp false h0 (hret None) h (outcome h0)) by (apply wp_ret; exact I).
  destruct a as [k []|k t []|k s []]; cbn [get_aggregator_h]; auto.
  - unfold get_aggregator_nonfunc_h. destruct k; auto.
    + bind. eapply wp_mono; [|now apply wp_make_cat]. intros h1 c L1 V1 _.
      bind. eapply wp_mono; [|now apply wp_make_aggregator_from]. intros h2 v L2 (_ & W) _. now apply wp_ret.
    + bind. eapply wp_mono; [|now apply wp_items, good_false]. intros h' l _ _ _.
      bind. eapply wp_mono; [|apply wp_lift with (Q := fun _ _ => True); auto]. intros; apply wp_throw.
    + bind. eapply wp_mono; [|now apply wp_items, good_false]. intros h' l _ _ _.
      bind. eapply wp_mono; [|apply wp_lift with (Q := fun _ _ => True); auto]. intros; apply wp_throw.
  - now apply wp_get_aggregator_transformer.
  - now apply wp_get_aggregator_string.
Qed.
Lemma wp_get_2_ary h0 dir a i1 x1 i2 x2 o x3 h :
  valid h x1 -> valid h x2 -> valid h x3 ->
  wp false h0 (get_2_ary_with_aux_h dir a i1 x1 i2 x2 o x3) h (fun h' v => newly h0 h' v).
Proof.
  intros X1 X2 X3. destruct a as [k b|k t b|k s b]; try apply wp_throw. cbn [get_2_ary_with_aux_h].
  bind. eapply wp_mono; [|now apply wp_items, good_false]. intros h' l1 _ (-> & G1) _.
  bind. eapply wp_mono; [|now apply wp_items, good_false]. intros h' l2 _ (-> & G2) _.
  bind. eapply wp_mono; [|apply wp_lift with (Q := fun h' _ => h' = h); auto]. intros h' u1 _ -> _.
  bind. eapply wp_mono; [|now apply wp_items, good_false]. intros h' l3 _ (-> & G3) _.
  bind. eapply wp_mono; [|apply wp_lift with (Q := fun h' _ => h' = h); auto]. intros h' u2 _ -> _.
  bind. eapply wp_mono; [|apply wp_lift with (Q := fun h' _ => h' = h); auto]. intros h' c _ -> _.
  bind. eapply wp_mono; [|apply wp_new_flags]. intros h1 fl L1 Vfl _. cbv zeta.
  bind. eapply wp_mono; [|apply wp_alloc; [constructor|exact I]]. intros h2 d L2 Fd _.
  bind. eapply wp_mono; [|apply wp_add_accesses; exact Fd]. intros h3 _ L3 _ _.
  bind. eapply wp_mono; [|apply wp_add_accesses; eapply fresh_mono; eauto]. intros h4 _ L4 _ _.
  bind. eapply wp_mono; [|apply wp_alloc; [|exact I]].
  2:{ assert (M : forall l, Forall (good false h0 h) l -> Forall (good false h0 h4) l).
      { intros l. apply Forall_good_mono. lia. }
      assert (K : forall z, good false h0 h4 (HInt z)) by (split; cbn; auto).
      cbn [slots]. repeat (apply Forall_app; split); auto; repeat constructor; cbn; auto; discriminate. }
  intros h5 ol L5 Fol _. eapply wp_mono; [|apply wp_new_invocation_newly].
  - intros h6 v L6 W. apply W.
  - constructor; [eapply valid_mono; [|exact Vfl]; lia|]. constructor; [apply Fol|].
    constructor; [cbn; auto|]. constructor; [cbn; auto|].
    constructor; [|constructor]. eapply valid_mono; [|apply Fd]; lia.
Qed.

Theorem get_aggregator_frame dir a orig x o h h' r :
  closed h -> valid h orig -> valid h x -> valid_transformer h (hagg_transformer a) ->
  get_aggregator_h dir a orig x o h = (h', r) ->
  unchanged h h' /\ length h <= length h' /\ closed h' /\ (forall v, r = Ok (Some v) -> newly h h' v).
Proof.
  intros C V X T E. assert (W := wp_get_aggregator h dir a orig x o h V X T (inv_start _ _ C)).
  rewrite E in W. destruct r as [r|e].
  - destruct W as (I & L & W). split; [apply I|]. split; [auto|]. split; [eapply inv_closed; eauto|].
    intros v H; injection H as ->. exact W.
  - destruct W as (I & L). split; [apply I|]. split; [auto|]. split; [eapply inv_closed; eauto|discriminate].
Qed.
Theorem get_2_ary_frame dir a i1 x1 i2 x2 o x3 h h' r :
  closed h -> valid h x1 -> valid h x2 -> valid h x3 ->
  get_2_ary_with_aux_h dir a i1 x1 i2 x2 o x3 h = (h', r) ->
  unchanged h h' /\ length h <= length h' /\ closed h' /\ (forall v, r = Ok v -> newly h h' v).
Proof.
  intros C X1 X2 X3 E. assert (W := wp_get_2_ary h dir a i1 x1 i2 x2 o x3 h X1 X2 X3 (inv_start _ _ C)).
  rewrite E in W. destruct r as [r|e].
  - destruct W as (I & L & W). split; [apply I|]. split; [auto|]. split; [eapply inv_closed; eauto|].
    intros v H; injection H as ->. exact W.
  - destruct W as (I & L). split; [apply I|]. split; [auto|]. split; [eapply inv_closed; eauto|discriminate].
Qed.

(** ** Clients *)
Lemma client_length h held h' held' : client h held h' held' -> length h <= length h'.
Proof.
  induction 1; auto.
  - rewrite app_length in IHclient; lia.
  - now rewrite update_length in IHclient.
Qed.
(** A client that holds only objects of a set closed under references changes only that set
    and its own objects. *)
Lemma client_confined (P : loc -> Prop) h held h' held' n :
  client h held h' held' -> n <= length h ->
  (forall l, n <= l -> P l) ->
  (forall l o v, P l -> nth_error h l = Some o -> In v (slots o) -> match v with HRef k => P k | _ => True end) ->
  Forall (fun v => match v with HRef k => P k | _ => True end) held ->
  forall l, ~ P l -> nth_error h' l = nth_error h l.
Proof.
  intros Cl. induction Cl; intros Hn Hnew Hcl Hh k Hk; auto.
  - apply IHCl; auto. constructor; auto. rewrite Forall_forall in Hh. apply (Hcl l o v (Hh _ H) H0 H1).
  - rewrite IHCl; auto.
    + rewrite nth_error_snoc. destruct (Nat.eqb_spec k (length h)); auto. subst k. exfalso; apply Hk, Hnew; auto.
    + rewrite app_length; lia.
    + intros l ob v Hl E Hv. rewrite nth_error_snoc in E. destruct (Nat.eqb l (length h)).
      * injection E as <-. rewrite Forall_forall in H, Hh. specialize (H _ Hv).
        destruct v; auto. apply (Hh _ H).
      * eapply Hcl; eauto.
  - rewrite Forall_forall in Hh. assert (Pl : P l) by apply (Hh _ H).
    rewrite IHCl; auto.
    + rewrite update_other; auto. congruence.
    + now rewrite update_length.
    + intros j ob v Hj E Hv. destruct (Nat.eq_dec j l) as [->|D].
      * destruct (Nat.lt_ge_cases l (length h)).
        -- rewrite update_same in E by auto. injection E as <-. rewrite Forall_forall in H0.
           specialize (H0 _ Hv). destruct v; auto. apply (Hh _ H0).
        -- rewrite (proj2 (nth_error_None _ _)) in E by (now rewrite update_length). discriminate.
      * rewrite update_other in E by auto. eapply Hcl; eauto.
    + rewrite Forall_forall; auto.
Qed.

(** A client of the result alone does not touch older objects. *)
Theorem newly_client h h1 v h2 held :
  newly h h1 v -> client h1 [v] h2 held -> length h <= length h1 ->
  forall l, l < length h -> nth_error h2 l = nth_error h1 l.
Proof.
  intros (hb & Lb & (U & L & I) & (F & F')) Cl L1 l Hl.
  apply (client_confined (fun k => length hb <= k) h1 [v] h2 held (length h1) Cl); auto; try lia.
  intros k o w Hk E Hw. apply I in E as (_ & E). destruct (E Hk) as (E' & _). specialize (E' eq_refl).
  rewrite Forall_forall in E'. specialize (E' _ Hw). destruct w; auto.
Qed.
(** A client of older objects does not touch what the result consists of. *)
Theorem older_client h h1 held h2 held' :
  closed h -> unchanged h h1 -> length h <= length h1 ->
  Forall (valid h) held -> client h1 held h2 held' ->
  forall l, length h <= l -> l < length h1 -> nth_error h2 l = nth_error h1 l.
Proof.
  intros C U L V Cl l Hl Hl'.
  apply (client_confined (fun k => k < length h \/ length h1 <= k) h1 held h2 held' (length h1) Cl); auto; try lia.
  - intros k o v [Hk|Hk] E Hv.
    + rewrite U in E by auto. assert (W := C _ (nth_error_In _ _ E)). rewrite Forall_forall in W.
      specialize (W _ Hv). destruct v; auto.
    + assert (nth_error h1 k <> None) by congruence. apply nth_error_Some in H. lia.
  - eapply Forall_impl; [|exact V]. intros [] Ha; auto.
Qed.
