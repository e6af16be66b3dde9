(** * get_mapper and get_aggregator on objects *)
From Coq Require Import Lia.
Require Import Verif.PyBase Verif.JsonData Verif.Parser Verif.Access Verif.IOInfo Verif.IOVars
  Verif.Transformers Verif.ParaTypes Verif.MapperAgg Verif.Heap Verif.SpecHeap Verif.HeapFacts
  Verif.HeapSep Verif.HeapCopy Verif.HeapRefine Verif.HeapRefine2.

Lemma hbind_ok A B (m : hm A) (f : A -> hm B) h h' a : m h = (h', Ok a) -> hbind m f h = f a h'.
Proof. intros E. unfold hbind. now rewrite E. Qed.
Ltac runs E := rewrite (hbind_ok _ _ _ _ _ _ _ E).

(** The attributes of an invocation *)
Lemma read_invocation h x c : views_invocation h x c ->
  exists fl ol i o am,
    get_cmd_name x h = (h, Ok (v_cmd c)) /\
    get_attr x "flag_option_list" h = (h, Ok fl) /\ views view_flag h fl (v_flags c) /\
    get_attr x "operand_list" h = (h, Ok ol) /\ views view_val h ol (v_ops c) /\
    get_attr x "implicit_use_of_streaming_input" h = (h, Ok i) /\ view_val h i = Some (v_in c) /\
    get_attr x "implicit_use_of_streaming_output" h = (h, Ok o) /\ view_val h o = Some (v_out c) /\
    get_attr x "access_map" h = (h, Ok am) /\ views_dict h am (v_acc c).
Proof.
  intros (a & cls & attrs & fl & ol & i & o & am & -> & E & Cl & E1 & E2 & V2 & E3 & V3 & E4 & V4 & E5 & V5 & E6 & V6).
  exists fl, ol, i, o, am. assert (R := fun n v => read_attr h a cls attrs n v E).
  split; [unfold get_cmd_name; now runs (R _ _ E1)|].
  do 9 (split; [now auto|]). auto.
Qed.

(** ** The mapper *)
Lemma base_mapper_views h s s' orig c :
  closed h -> views_invocation h orig c -> views_mapper_spec h s s' ->
  exists h' m, base_mapper_h s orig h = (h', Ok m) /\ unchanged h h' /\ closed h' /\
               views_invocation h' m (base_mapper s' c).
Proof.
  intros C V (K & N & T & P & _). unfold base_mapper_h.
  destruct (read_invocation h orig c V) as (fl & ol & i & o & am & R1 & R2 & V2 & _).
  runs R1. runs R2.
  assert (X : exists h1 fl', (match hms_kind s with
             | SAME_AS_SEQ => hret fl
             | CUSTOM => transform_h (hms_transformer s) fl
             end) h = (h1, Ok fl') /\ unchanged h h1 /\ closed h1 /\ views view_flag h1 fl' (v_flags (base_mapper s' c))).
  { unfold base_mapper. rewrite K. destruct (ms_kind s').
    - exists h, fl. split; [reflexivity|]. split; [apply unchanged_refl|auto].
    - destruct (transform_views _ _ _ _ _ T P V2) as (h1 & y & E & U & V').
      exists h1, y. split; [exact E|]. split; [exact U|]. split; [|exact V'].
      assert (W := wp_transform h _ _ fl (views_transformer_valid _ _ _ T) (good_false _ _ _ (views_valid _ _ _ _ _ V2))).
      destruct (wp_ok _ _ _ _ _ _ _ _ W (inv_start _ _ C) E) as (I & _). eapply inv_closed; eauto. }
  destruct X as (h1 & fl' & E1 & U1 & C1 & Vf). runs E1.
  destruct (read_invocation h1 orig c (views_invocation_unchanged _ _ _ _ U1 V))
    as (fl1 & ol1 & i1 & o1 & am1 & _ & _ & _ & R3 & V3 & R4 & V4 & R5 & V5 & R6 & V6).
  runs R3. runs R4. runs R5. runs R6.
  destruct (new_invocation_views h1 "Mapper" None
    (match hms_kind s, hms_cmd_name s with CUSTOM, Some n => n | _, _ => v_cmd c end) fl' ol1 i1 o1 am1 (base_mapper s' c))
    as (h2 & sl & E2 & U2 & C2 & V' & _); auto.
  - unfold invocation_class; cbn; auto.
  - unfold base_mapper. rewrite K, N. destruct (ms_kind s'), (ms_cmd_name s'); reflexivity.
  - unfold base_mapper. destruct (ms_kind s'); auto.
  - unfold base_mapper. destruct (ms_kind s'); auto.
  - unfold base_mapper. destruct (ms_kind s'); auto.
  - unfold base_mapper. destruct (ms_kind s'); auto.
  - exists h2, (HRef sl). split; [exact E2|]. split; [eapply unchanged_trans; eauto|auto].
Qed.

(** Adding accesses to a dict *)
Lemma add_accesses_views a d : forall ks h m, views_dict h (HRef d) m ->
  exists h', add_accesses (HRef d) a (map HInt ks) h = (h', Ok tt) /\ views_dict h' (HRef d) (am_of ks a m) /\
    length h <= length h' /\ stable h h' /\ (forall l, l < length h -> l <> d -> nth_error h' l = nth_error h l).
Proof.
  induction ks as [|k ks IH]; intros h m V.
  - exists h. split; [reflexivity|]. split; [exact V|]. split; [lia|]. split; [apply stable_refl|auto].
  - destruct V as (d' & es & Ed & E & V). injection Ed as <-.
    set (h1 := h ++ [OInst "AccessKind" [("kind", HAccess a)]]).
    assert (U1 : unchanged h h1) by apply unchanged_snoc.
    assert (Ld : d < length h) by (apply nth_error_Some; congruence).
    assert (E1 : nth_error h1 d = Some (ODict es)) by (rewrite U1; auto).
    set (h2 := update h1 d (ODict (set_z es k (HRef (length h))))).
    assert (S2 : stable h h2).
    { intros l c at' El Lf. unfold h2. rewrite update_other by congruence.
      rewrite U1; auto. apply nth_error_Some. congruence. }
    destruct (IH h2 (am_set m k a)) as (h3 & R3 & V3 & L3 & S3 & F3).
    + exists d, (set_z es k (HRef (length h))). split; [auto|]. split; [apply update_same, nth_error_Some; congruence|].
      intros q. rewrite set_z_assoc. unfold am_set. destruct (Z.eqb q k).
      * exists a. split; auto. unfold view_access, attr, h2. rewrite update_other by lia.
        unfold h1. now rewrite nth_error_snoc, Nat.eqb_refl.
      * specialize (V q). destruct (assoc_z es q); auto. destruct V as (acc & V1 & V2). exists acc. split; auto.
        eapply view_access_stable; eauto.
    + exists h3. split.
      { unfold add_accesses. cbn [map hiter]. unfold hbind at 1. unfold as_int at 1. cbn [hbind hret].
        unfold hbind at 1. change (hret k h) with (h, Ok k). cbv beta iota.
        unfold hbind at 1. unfold new_access at 1, alloc. cbv beta iota. fold h1.
        assert (Ds : dict_set (HRef d) k (HRef (length h)) h1 = (h2, Ok tt)).
        { unfold dict_set, entries, hbind, get_obj. now rewrite E1. }
        rewrite Ds. exact R3. }
      split; [exact V3|]. assert (L2 : length h <= length h2).
      { unfold h2, h1. rewrite update_length, app_length. lia. }
      split; [lia|]. split; [eapply stable_trans; eauto|].
      intros l Hl N. rewrite F3 by (auto; lia). unfold h2. rewrite update_other by auto. now apply U1.
Qed.

Lemma pop_operands_sim sl dl ops : forall ps h m l, env_rel sl dl None h (m, l) -> vals h ops ps ->
  match hiter (fun x => match x with
                        | HInt v => run! d := get_attr (HRef sl) "access_map" in
                                    run! _ := dict_pop d v in hret tt
                        | _ => hthrow AssertionError
                        end) ops h, pop_operands ps m with
  | (h', Ok _), Ok m' => step dl None h h' /\ env_rel sl dl None h' (m', l)
  | (_, Raise x), Raise y => x = y
  | _, _ => False
  end.
Proof.
  induction ops as [|x ops IH]; intros ps h m l E V; inversion V as [|? p ? ps' Hx Hl]; subst; cbn [hiter pop_operands].
  - cbn. split; [apply step_refl|auto].
  - apply view_val_form in Hx. destruct Hx as [|v| | |]; try reflexivity.
    assert (S := sim_pop_access sl dl None h (m, l) v E). unfold sim, pop_access in S. cbn [fst snd] in S.
    unfold hbind at 1. rewrite (hbind_ok _ _ _ _ _ _ _ (read_map sl dl None h _ E)).
    unfold hbind at 1. destruct (dict_pop (HRef dl) v h) as (h1 & [r|ex]), (m v); auto; try contradiction.
    destruct S as (S1 & E1 & _). cbn [hret].
    specialize (IH ps' h1 (am_del m v) l E1 (vals_stable _ _ _ _ (proj1 (proj2 S1)) Hl)).
    match goal with |- match ?A with _ => _ end => destruct A as (h2 & [u|x]) end;
    destruct (pop_operands ps' (am_del m v)); auto.
    destruct IH as (S2 & E2). split; [eapply step_trans; eauto|auto].
Qed.

(** A dict that was written is still the dict of the object. *)
Lemma obj_dict sl dl h h' c m : obj_rel sl dl None [] h (c, []) ->
  length h <= length h' -> stable h h' -> (forall l, l < length h -> l <> dl -> nth_error h' l = nth_error h l) ->
  views_dict h' (HRef dl) m -> obj_rel sl dl None [] h' (with_acc m c, []).
Proof.
  intros O L S F V. eapply obj_step; [exact O| |].
  - split; [exact L|]. split; [exact S|]. intros; auto.
  - assert (St : step dl None h h') by (split; [exact L|split; [exact S|auto]]).
    assert (E := obj_env _ _ _ _ _ _ O). assert (Hs := step_sl _ _ _ _ _ _ E St).
    destruct E as ((cls & attrs & E1 & E2) & _). split; [exists cls, attrs; split; [congruence|auto]|].
    split; [exact V|exact I].
Qed.

Theorem get_mapper_views h s s' orig c aux l i o :
  closed h -> views_invocation h orig c -> variables h aux l -> views_mapper_spec h s s' ->
  same_outcome views_invocation (get_mapper_h s orig i o aux h) (get_mapper s' c i o l).
Proof.
  intros C V A T. assert (T' := T). destruct T' as (_ & _ & _ & _ & Im).
  rewrite get_mapper_rest. unfold get_mapper. rewrite <- Im. destruct (hms_is_implemented s); cbn [negb]; [|exact Logic.I].
  destruct (base_mapper_views h s s' orig c C V T) as (h1 & mp & E1 & U1 & C1 & V1). runs E1.
  set (bm := base_mapper s' c) in *. clearbody bm.
  runs (items_variables h1 aux l (variables_unchanged _ _ _ _ U1 A)).
  destruct (views_obj h1 mp bm V1) as (sl & dl & -> & O).
  destruct l as [|z l]; cbn [map].
  - (* no auxiliary outputs *)
    cbn [rest_mapper].
    set (h2 := h1 ++ [OList [HInt i]]). set (h3 := h2 ++ [OList [HInt o]]).
    assert (A1 : alloc (OList [HInt i]) h1 = (h2, Ok (HRef (length h1)))) by reflexivity.
    assert (A2 : alloc (OList [HInt o]) h2 = (h3, Ok (HRef (length h2)))) by reflexivity.
    runs A1. runs A2. set (k1 := length h1) in *. set (k2 := length h2) in *.
    assert (Lk : k2 = S k1) by (unfold k2, h2, k1; rewrite app_length; cbn; lia).
    assert (L3 : length h3 = S k2) by (unfold h3; rewrite app_length; cbn; fold k2; lia).
    assert (O1 : obj_rel sl dl (Some k1) [k2] h3 (bm, [i])).
    { apply obj_extend with (h := h1).
      - destruct O as (cls & attrs & fl & ol & ix & ox & O). exists cls, attrs, fl, ol, ix, ox. exact O.
      - eapply unchanged_trans; apply unchanged_snoc.
      - unfold h3, h2. rewrite nth_error_app1 by (rewrite app_length; cbn; fold k1; lia).
        rewrite nth_error_snoc. unfold k1. now rewrite Nat.eqb_refl.
      - intros j [->|[<-|[]]]; fold k1; lia. }
    assert (M1 := substitute_sim sl dl k1 [k2] is_stream_input h3 (bm, [i]) O1).
    unfold msim in M1. unfold substitute_inputs_and_outputs_h, substitute_inputs_and_outputs,
      substitute_inputs_in_cmd_invocation, substitute_outputs_in_cmd_invocation. unfold hbind.
    destruct (substitute_h is_stream_input (HRef sl) (HRef k1) h3) as (h4 & [u|ex]),
             (substitute is_stream_input (bm, [i])) as ((c4 & l4) & [u'|ey]); try contradiction; [|subst; reflexivity].
    destruct M1 as (W1 & O4).
    assert (O5 : obj_rel sl dl (Some k2) [] h4 (c4, [o])).
    { eapply obj_swap; [exact O4|]. destruct W1 as (_ & _ & W1). rewrite W1.
      - unfold h3, k2. now rewrite nth_error_snoc, Nat.eqb_refl.
      - lia.
      - intros Hq. destruct O as (cls & attrs & fl & ol & ix & ox & Q & _).
        assert (sl0 : nth_error h1 sl <> None) by congruence. apply nth_error_Some in sl0. fold k1 in sl0. lia.
      - intros Hq. destruct (obj_env _ _ _ _ _ _ O) as (_ & (d & es & Ed & Q & _) & _). injection Ed as <-.
        assert (sl0 : nth_error h1 dl <> None) by congruence. apply nth_error_Some in sl0. fold k1 in sl0. lia.
      - intros Hk. injection Hk. lia. }
    assert (M2 := substitute_sim sl dl k2 [] is_stream_output h4 (c4, [o]) O5). unfold msim in M2.
    destruct (substitute_h is_stream_output (HRef sl) (HRef k2) h4) as (h5 & [u2|ex]),
             (substitute is_stream_output (c4, [o])) as ((c5 & l5) & [u2'|ey]); try contradiction; [|subst; reflexivity].
    destruct M2 as (_ & O6). cbn. exact (obj_views _ _ _ _ _ _ O6).
  - (* auxiliary outputs *)
    cbn [rest_mapper]. change (HInt z :: map HInt l) with (map HInt (z :: l)).
    set (zs := z :: l) in *.
    destruct (read_invocation h1 (HRef sl) bm V1) as (fl1 & ol1 & i1 & o1 & am1 & _ & _ & _ & R3 & V3 & _).
    runs R3. destruct (views_items _ _ _ _ V3) as (ops & R4 & Q4). runs R4.
    assert (P := pop_operands_sim sl dl ops (v_ops bm) h1 (v_acc bm) [] (obj_env _ _ _ _ _ _ O) Q4).
    unfold hbind at 1.
    match goal with |- context [hiter ?F ops h1] => destruct (hiter F ops h1) as (h2 & [u|ex]) end;
    destruct (pop_operands (v_ops bm) (v_acc bm)) as [m2|ey]; try contradiction; [|subst; reflexivity].
    destruct P as (S2 & E2). assert (O2 := obj_step _ _ _ _ _ _ _ _ _ _ O S2 E2). clear O S2 E2.
    set (h3 := h2 ++ [OList (HInt i :: HInt o :: map HInt zs)]).
    assert (A3 : alloc (OList (HInt i :: HInt o :: map HInt zs)) h2 = (h3, Ok (HRef (length h2)))) by reflexivity.
    runs A3.
    assert (O3 : obj_rel sl dl None [] h3 (with_acc m2 bm, [])).
    { assert (E := env_snoc _ _ _ _ _ (OList (HInt i :: HInt o :: map HInt zs)) (obj_env _ _ _ _ _ _ O2)).
      exact (obj_step _ _ _ _ _ _ _ _ _ _ O2 (step_snoc _ _ _ _) E). }
    destruct (set_field sl dl None [] h3 _ [] FOps (HRef (length h2)) (map PVar (i :: o :: zs)) O3) as (h4 & R5 & _ & O4).
    { split; [|intros k [Hk|[]]; discriminate]. eexists _, _. split; [reflexivity|].
      split; [unfold h3; now rewrite nth_error_snoc, Nat.eqb_refl|]. exact (vals_ints h3 (i :: o :: zs)). }
    cbn [field_name] in R5. runs R5. clear O2 O3.
    runs (read_map sl dl None h4 _ (obj_env _ _ _ _ _ _ O4)).
    assert (Vd : views_dict h4 (HRef dl) m2) by apply (proj1 (proj2 (obj_env _ _ _ _ _ _ O4))).
    destruct (add_accesses_views STREAM_INPUT dl [i] h4 m2 Vd) as (h5 & R6 & Vd5 & L5 & S5 & F5).
    cbn [map] in R6. runs R6.
    destruct (add_accesses_views STREAM_OUTPUT dl [o] h5 _ Vd5) as (h6 & R7 & Vd6 & L6 & S6 & F6).
    cbn [map] in R7. runs R7.
    destruct (add_accesses_views STREAM_OUTPUT dl zs h6 _ Vd6) as (h7 & R8 & Vd7 & L7 & S7 & F7).
    runs R8.
    assert (O7 : obj_rel sl dl None [] h7 (with_acc (am_of zs STREAM_OUTPUT (am_of [o] STREAM_OUTPUT (am_of [i] STREAM_INPUT m2)))
                    (with_ops (map PVar (i :: o :: zs)) (with_acc m2 bm)), [])).
    { eapply obj_dict; [exact O4|lia| | |exact Vd7].
      - eapply stable_trans; [exact S5|]. eapply stable_trans; [exact S6|exact S7].
      - intros q Hq N. rewrite F7, F6, F5 by (auto; lia). auto. }
    destruct (set_field sl dl None [] h7 _ [] FOut HNone PNone O7 eq_refl) as (h8 & R9 & _ & O8).
    cbn [field_name] in R9. runs R9.
    destruct (set_field sl dl None [] h8 _ [] FIn HNone PNone O8 eq_refl) as (h9 & R10 & _ & O9).
    cbn [field_name] in R10. runs R10.
    cbn. exact (obj_views _ _ _ _ _ _ O9).
Qed.

(** ** The aggregator *)
Lemma make_aggregator_from_views h x c k :
  closed h -> views_invocation h x c ->
  exists h' m, make_aggregator_from x k h = (h', Ok m) /\ unchanged h h' /\ closed h' /\
               views_aggregator h' m (k, c).
Proof.
  intros C V. unfold make_aggregator_from.
  destruct (read_invocation h x c V) as (fl & ol & i & o & am & R1 & R2 & V2 & R3 & V3 & R4 & V4 & R5 & V5 & R6 & V6).
  runs R1. runs R2. runs R3. runs R4. runs R5. runs R6.
  destruct (new_invocation_views h "Aggregator" (Some k) (v_cmd c) fl ol i o am c) as (h2 & sl & E2 & U2 & C2 & V' & K'); auto.
  { unfold invocation_class; cbn; auto. }
  exists h2, (HRef sl). split; [exact E2|]. split; [exact U2|]. split; [exact C2|]. split; auto.
Qed.

(** A new dict with the accesses of some inputs and some outputs *)
Lemma new_map_views h ins outs :
  exists h' , (run! d := alloc (ODict []) in
               run! _ := add_accesses d STREAM_INPUT (map HInt ins) in
               run! _ := add_accesses d STREAM_OUTPUT (map HInt outs) in hret d) h = (h', Ok (HRef (length h))) /\
    unchanged h h' /\
    views_dict h' (HRef (length h)) (am_of outs STREAM_OUTPUT (am_of ins STREAM_INPUT am_empty)).
Proof.
  set (h1 := h ++ [ODict []]). assert (A1 : alloc (ODict []) h = (h1, Ok (HRef (length h)))) by reflexivity.
  assert (V1 : views_dict h1 (HRef (length h)) am_empty).
  { exists (length h), []. split; [auto|]. split; [unfold h1; now rewrite nth_error_snoc, Nat.eqb_refl|reflexivity]. }
  destruct (add_accesses_views STREAM_INPUT (length h) ins h1 _ V1) as (h2 & R2 & V2 & L2 & S2 & F2).
  destruct (add_accesses_views STREAM_OUTPUT (length h) outs h2 _ V2) as (h3 & R3 & V3 & L3 & S3 & F3).
  exists h3. split; [runs A1; runs R2; runs R3; reflexivity|]. split; [|exact V3].
  assert (U1 : unchanged h h1) by apply unchanged_snoc. assert (L1 := unchanged_length _ _ U1).
  intros l Hl. rewrite F3, F2 by lia. now apply U1.
Qed.
Lemma new_map_split {A} h ins outs (f : hval -> hm A) :
  (run! d := alloc (ODict []) in
   run! _ := add_accesses d STREAM_INPUT (map HInt ins) in
   run! _ := add_accesses d STREAM_OUTPUT (map HInt outs) in f d) h =
  (run! d := (run! d := alloc (ODict []) in
              run! _ := add_accesses d STREAM_INPUT (map HInt ins) in
              run! _ := add_accesses d STREAM_OUTPUT (map HInt outs) in hret d) in f d) h.
Proof.
  unfold hbind, alloc. destruct (add_accesses _ _ _ _) as (h2 & [u|e]); auto.
  destruct (add_accesses _ _ _ _) as (h3 & [u'|e]); auto.
Qed.
(** Closedness along programs *)
Lemma wp_closed A (m : hm A) h h' a (Q : heap -> A -> Prop) :
  closed h -> wp false h m h Q -> m h = (h', Ok a) -> closed h'.
Proof.
  intros C W E. destruct (wp_ok _ _ _ _ _ _ _ _ W (inv_start _ _ C) E) as (I & _). eapply inv_closed; eauto.
Qed.
Lemma wp_new_map h0 h ins outs :
  wp false h0 (run! d := alloc (ODict []) in
               run! _ := add_accesses d STREAM_INPUT ins in
               run! _ := add_accesses d STREAM_OUTPUT outs in hret d) h (fun _ _ => True).
Proof.
  apply wp_bind. eapply wp_mono; [|apply wp_alloc; [constructor|exact I]]. intros h1 d L1 Fd _.
  apply wp_bind. eapply wp_mono; [|apply wp_add_accesses; exact Fd]. intros h2 _ L2 _ _.
  apply wp_bind. eapply wp_mono; [|apply wp_add_accesses; eapply fresh_mono; eauto]. intros h3 _ L3 _ _.
  now apply wp_ret.
Qed.
Lemma am_of_one z a m : am_of [z] a m = am_set m z a.
Proof. reflexivity. Qed.

Lemma make_cat_views h x l o : closed h -> variables h x l ->
  exists h' m, make_cat_h x o h = (h', Ok m) /\ unchanged h h' /\ closed h' /\ views_invocation h' m (make_cat l o).
Proof.
  intros C V. unfold make_cat_h. runs (items_variables h x l V).
  change [HInt o] with (map HInt [o]). rewrite new_map_split.
  destruct (new_map_views h l [o]) as (h1 & R1 & U1 & V1). runs R1.
  assert (C1 := wp_closed _ _ _ _ _ _ C (wp_new_map h h _ _) R1).
  set (h2 := h1 ++ [OList []]). assert (A2 : alloc (OList []) h1 = (h2, Ok (HRef (length h1)))) by reflexivity.
  runs A2. assert (U2 : unchanged h1 h2) by apply unchanged_snoc.
  assert (C2 : closed h2).
  { eapply wp_closed; [exact C1|apply (wp_alloc false h1 h1 (OList [])); [constructor|exact I]|exact A2]. }
  destruct (new_invocation_views h2 "CommandInvocationWithIOVars" None "cat" (HRef (length h1)) x HNone (HInt o)
              (HRef (length h)) (make_cat l o)) as (h3 & sl & E3 & U3 & C3 & V3 & _); auto.
  - unfold invocation_class; cbn; auto.
  - apply new_list_views. constructor.
  - apply variables_views. eapply variables_unchanged; [|exact V]. eapply unchanged_trans; eauto.
  - eapply views_dict_unchanged; [exact U2|exact V1].
  - exists h3, (HRef sl). split; [exact E3|]. split; [|auto].
    eapply unchanged_trans; [exact U1|]. eapply unchanged_trans; eauto.
Qed.

Lemma register_sim sl dl ids : forall h m, env_rel sl dl None h (m, []) ->
  match hiter (fun x =>
    run! v := as_int x in
    run! d := get_attr (HRef sl) "access_map" in
    run! b := dict_has d v in
    if b then hthrow AssertionError
    else run! r := new_access STREAM_INPUT in dict_set d v r) (map HInt ids) h, register_inputs ids m with
  | (h', Ok _), Ok m' => step dl None h h' /\ env_rel sl dl None h' (m', [])
  | (_, Raise x), Raise y => x = y
  | _, _ => False
  end.
Proof.
  induction ids as [|v ids IH]; intros h m E; cbn [map hiter register_inputs].
  - cbn. split; [apply step_refl|auto].
  - destruct (read_entries sl dl None h _ E) as (es & R & _ & V). specialize (V v). cbn [fst] in V.
    assert (Rh : dict_has (HRef dl) v h = (h, Ok (match assoc_z es v with Some _ => true | None => false end))).
    { unfold dict_has. now runs R. }
    unfold hbind at 1. rewrite (hbind_ok _ _ (as_int (HInt v)) _ h h v eq_refl).
    rewrite (hbind_ok _ _ _ _ _ _ _ (read_map sl dl None h _ E)). rewrite (hbind_ok _ _ _ _ _ _ _ Rh).
    destruct (assoc_z es v) as [x|].
    + destruct V as (acc & _ & ->). reflexivity.
    + rewrite V. set (h1 := h ++ [OInst "AccessKind" [("kind", HAccess STREAM_INPUT)]]).
      assert (A1 : new_access STREAM_INPUT h = (h1, Ok (HRef (length h)))) by reflexivity.
      rewrite (hbind_ok _ _ _ _ _ _ _ A1).
      assert (E1 : env_rel sl dl None h1 (m, [])) by now apply env_snoc.
      assert (Vn : view_access h1 (HRef (length h)) = Some STREAM_INPUT).
      { unfold view_access, attr, h1. now rewrite nth_error_snoc, Nat.eqb_refl. }
      assert (S := sim_set_access sl dl None h1 (m, []) v (HRef (length h)) STREAM_INPUT E1 Vn).
      unfold sim, set_access in S. cbn [fst snd] in S.
      destruct (dict_set (HRef dl) v (HRef (length h)) h1) as (h2 & [u|ex]); [|contradiction].
      destruct S as (S2 & E2 & _). specialize (IH h2 _ E2).
      match goal with |- match ?A with _ => _ end => destruct A as (h3 & [w|x]) end;
      destruct (register_inputs ids _); auto.
      destruct IH as (S3 & E3). split; [|auto]. eapply step_trans; [apply step_snoc|]. eapply step_trans; eauto.
Qed.

Lemma arity_same k n l : length l = n -> arity_check_h k n = hlift (arity_check k l).
Proof. intros <-. destruct k; reflexivity. Qed.

Lemma aggregator_transformer_views h k t t' orig c x l o :
  closed h -> views_invocation h orig c -> variables h x l -> views_transformer h t t' -> plain_transformer t' ->
  same_outcome views_aggregator (get_aggregator_transformer_h k t orig x o h) (get_aggregator_transformer k t' c l o).
Proof.
  intros C V X T P. unfold get_aggregator_transformer_h, get_aggregator_transformer.
  runs (items_variables h x l X). rewrite map_length, (arity_same k _ l eq_refl). unfold hbind at 1, hlift.
  destruct (arity_check k l) as [u|ex]; [|reflexivity]. cbn [bind].
  assert (Vo := views_invocation_valid _ _ _ V). assert (I0 := inv_start false _ C).
  destruct (deepcopy_ok h orig C Vo) as (h1 & m1 & agg & E1 & U1 & C1 & R1 & M1). runs E1.
  destruct (wp_ok _ _ _ _ _ _ _ _ (wp_deepcopy false h h orig Vo) I0 E1) as (I1 & L1 & Fa1). cbv beta in Fa1.
  assert (V1 := views_invocation_rel h h1 m1 M1 orig agg c R1 V).
  assert (Vor1 := views_invocation_unchanged _ _ _ _ U1 V).
  destruct (read_invocation h1 orig c Vor1) as (fl & _ & _ & _ & _ & _ & R2 & V2 & _).
  runs R2. assert (T1 := views_transformer_unchanged _ _ U1 _ _ T).
  destruct (transform_views t t' h1 fl _ T1 P V2) as (h2 & fl' & E2 & U2 & V2'). runs E2.
  assert (Gfl : good false h h1 fl) by (apply good_false; eapply views_valid; eauto).
  destruct (wp_ok _ _ _ _ _ _ _ _ (wp_transform h t h1 fl (views_transformer_valid _ _ _ T1) Gfl) I1 E2) as (I2 & L2 & Gfl').
  cbv beta in Gfl'. assert (Fa2 : fresh h h2 agg) by (eapply fresh_mono; eauto).
  destruct (views_obj h2 agg c (views_invocation_unchanged _ _ _ _ U2 V1)) as (sl & dl & -> & O2).
  assert (X2 : variables h2 x l) by exact (variables_unchanged _ _ _ _ (unchanged_trans _ _ _ U1 U2) X).
  destruct (set_field sl dl None [] h2 c [] FFlags fl' (transform t' (v_flags c)) O2) as (h3 & E3 & W3 & O3).
  { split; [exact V2'|]. intros q [Hq|[]]; discriminate. }
  cbn [field_name with_field] in E3, O3. runs E3.
  destruct (wp_ok _ _ _ _ _ _ _ _ (wp_set_attr false h h2 (HRef sl) "flag_option_list" fl' Fa2 Gfl' ltac:(discriminate)) I2 E3)
    as (I3 & L3 & _).
  assert (Fa3 : fresh h h3 (HRef sl)) by (eapply fresh_mono; eauto).
  set (c3 := with_flags (transform t' (v_flags c)) c) in *.
  assert (Xstep : forall ha hb s, obj_rel sl dl None [] ha s -> wstep sl dl None ha hb -> variables ha x l -> variables hb x l).
  { intros ha hb s O (_ & _ & W) (a & -> & Ea). exists a. split; auto. rewrite W; auto.
    - apply nth_error_Some; congruence.
    - intros ->. destruct O as (cls & attrs & fl0 & ol0 & ix & ox & Q & _). congruence.
    - intros ->. destruct (obj_env _ _ _ _ _ _ O) as (_ & (d & es & Ed & Q & _) & _). injection Ed as <-. congruence.
    - discriminate. }
  assert (X3 := Xstep _ _ _ O2 W3 X2).
  assert (M := remove_sim sl dl is_stream_input h3 c3 O3).
  assert (Wr := wp_remove_streaming false h is_stream_input (HRef sl) h3 Fa3 I3).
  unfold remove_streaming_inputs. unfold hbind at 1.
  destruct (remove_streaming_h is_stream_input (HRef sl) h3) as (h4 & [u4|ex]),
           (remove_streaming is_stream_input c3) as (c4 & [u4'|ey]); try contradiction; [|subst; reflexivity].
  destruct M as (W4 & O4). destruct Wr as (I4 & L4 & _). cbn [finished bind].
  assert (Fa4 : fresh h h4 (HRef sl)) by (eapply fresh_mono; eauto).
  assert (X4 := Xstep _ _ _ O3 W4 X3).
  destruct (set_field sl dl None [] h4 c4 [] FOps x (map PVar l) O4) as (h5 & E5 & W5 & O5).
  { split; [now apply variables_views|]. intros q [Hq|[]]; discriminate. }
  cbn [field_name with_field] in E5, O5. runs E5.
  destruct (wp_ok _ _ _ _ _ _ _ _ (wp_set_attr false h h4 (HRef sl) "operand_list" x Fa4
     (good_false _ _ _ (variables_valid _ _ _ X4)) ltac:(discriminate)) I4 E5) as (I5 & L5 & _).
  assert (Fa5 : fresh h h5 (HRef sl)) by (eapply fresh_mono; eauto).
  assert (Rg := register_sim sl dl l h5 _ (obj_env _ _ _ _ _ _ O5)). cbn [fst] in Rg.
  assert (Wg : wp false h (hiter (fun x =>
    run! v := as_int x in
    run! d := get_attr (HRef sl) "access_map" in
    run! b := dict_has d v in
    if b then hthrow AssertionError
    else run! r := new_access STREAM_INPUT in dict_set d v r) (map HInt l)) h5 (fun _ _ => True)).
  { apply wp_hiter with (P := fun h' _ => length h5 <= length h').
    - intros; lia.
    - intros h' y L. assert (F' : fresh h h' (HRef sl)) by (eapply fresh_mono; eauto).
      apply wp_bind. eapply wp_mono; [|apply wp_as_int]. intros h'' v _ (-> & _) _.
      apply wp_bind. eapply wp_mono; [|now apply wp_access_map]. intros h'' d _ (-> & Fd) _.
      apply wp_bind. eapply wp_mono; [|now apply wp_dict_has, fresh_good]. intros h'' b _ -> _.
      destruct b; [apply wp_throw|]. apply wp_bind. eapply wp_mono; [|apply wp_new_access].
      intros h6 r L6 R _. apply wp_dict_set; [eapply fresh_mono; eauto|now apply fresh_good].
    - apply Forall_forall; auto. }
  specialize (Wg I5). unfold hbind at 1.
  match goal with |- context [hiter ?F (map HInt l) h5] => destruct (hiter F (map HInt l) h5) as (h6 & [u6|ex]) end;
  destruct (register_inputs l (v_acc (with_ops (map PVar l) c4))) as [m6|ey]; try contradiction; [|subst; reflexivity].
  destruct Rg as (S6 & E6). destruct Wg as (I6 & L6 & _). cbn [bind].
  assert (O6 := obj_step _ _ _ _ _ _ _ _ _ _ O5 S6 E6). clear S6 E6.
  assert (Fa6 : fresh h h6 (HRef sl)) by (eapply fresh_mono; eauto).
  set (c6 := with_acc m6 (with_ops (map PVar l) c4)) in *.
  destruct (read_invocation h6 (HRef sl) c6 (obj_views _ _ _ _ _ _ O6)) as (fl6 & ol6 & i6 & o6 & am6 & _ & _ & _ & _ & _ & _ & _ & R6 & V6 & _).
  runs R6.
  assert (Mr := replace_sim sl dl h6 c6 o6 (v_out c6) o O6 V6).
  assert (Wp := wp_replace_var false h (HRef sl) o6 o h6 Fa6 I6). unfold hbind at 1.
  destruct (replace_var_h (HRef sl) o6 o h6) as (h7 & [u7|ex]),
           (replace_var c6 (v_out c6) o) as (c7 & [u7'|ey]); try contradiction; [|subst; reflexivity].
  destruct Mr as (_ & O7). destruct Wp as (I7 & _). cbn [finished bind].
  destruct (make_aggregator_from_views h7 (HRef sl) c7 k (inv_closed _ _ _ I7) (obj_views _ _ _ _ _ _ O7))
    as (h8 & a & E8 & _ & _ & V8).
  runs E8. exact V8.
Qed.

Lemma new_flags_views h l :
  match new_flags l h, only_flags l with
  | (h', Ok x), Ok f => unchanged h h' /\ views view_flag h' x f
  | (_, Raise e), Raise e' => e = e'
  | _, _ => False
  end.
Proof.
  unfold new_flags, only_flags.
  assert (H : match hmap (fun fo => match fo with
                             | Flag n => alloc (OInst "Flag" [("flag_name", HStr n)])
                             | Option_ _ _ => hthrow AssertionError
                             end) l h, map_result (fun fo => match fo with Flag n => Ok (FFlag n) | Option_ _ _ => Raise AssertionError end) l with
              | (h', Ok vs), Ok f => unchanged h h' /\ flags h' vs f
              | (_, Raise e), Raise e' => e = e'
              | _, _ => False
              end).
  { revert h. induction l as [|[n|n a] l IH]; intros h; cbn [hmap map_result].
    - cbn. split; [apply unchanged_refl|constructor].
    - set (h1 := h ++ [OInst "Flag" [("flag_name", HStr n)]]).
      assert (A : alloc (OInst "Flag" [("flag_name", HStr n)]) h = (h1, Ok (HRef (length h)))) by reflexivity.
      runs A. cbn [bind]. specialize (IH h1). unfold hbind at 1.
      match goal with |- context [hmap ?F l h1] => destruct (hmap F l h1) as (h2 & [vs|ex]) end;
      destruct (map_result _ l) as [f|ey]; try contradiction; [|exact IH].
      destruct IH as (U & F). cbn. assert (U1 : unchanged h h1) by apply unchanged_snoc.
      split; [eapply unchanged_trans; eauto|]. constructor; [|exact F].
      eapply view_flag_stable; [apply unchanged_stable; exact U|]. apply view_flag_form.
      eapply ff_flag; [unfold h1; rewrite nth_error_snoc, Nat.eqb_refl; reflexivity|reflexivity].
    - reflexivity. }
  unfold hbind. match goal with |- context [hmap ?F l h] => destruct (hmap F l h) as (h2 & [vs|ex]) end;
  destruct (map_result _ l) as [f|ey]; try contradiction; [|exact H].
  destruct H as (U & F). cbn. split; [eapply unchanged_trans; [exact U|apply unchanged_snoc]|now apply new_list_views].
Qed.

Lemma aggregator_string_views h dir k s x l o :
  closed h -> variables h x l ->
  same_outcome views_aggregator (get_aggregator_string_h dir k s x o h) (get_aggregator_string dir k s l o).
Proof.
  intros C X. unfold get_aggregator_string_h, get_aggregator_string. unfold hbind at 1, hlift at 1.
  destruct (parse dir s) as [ci|ex]; [|reflexivity]. cbn [bind].
  assert (F := new_flags_views h (flag_option_list ci)).
  assert (W := wp_new_flags h (flag_option_list ci) h (inv_start _ _ C)). unfold hbind at 1.
  destruct (new_flags (flag_option_list ci) h) as (h1 & [fl|ex]), (only_flags (flag_option_list ci)) as [f|ey];
    try contradiction; [|subst; reflexivity].
  destruct F as (U1 & V1). destruct W as (I1 & L1 & _). assert (C1 := inv_closed _ _ _ I1). cbn [bind].
  assert (X1 := variables_unchanged _ _ _ _ U1 X). runs (items_variables h1 x l X1).
  change [HInt o] with (map HInt [o]). rewrite new_map_split.
  destruct (new_map_views h1 l [o]) as (h2 & R2 & U2 & V2). runs R2.
  assert (C2 := wp_closed _ _ _ _ _ _ C1 (wp_new_map h1 h1 _ _) R2).
  set (cv := mkCiv (cmd_name ci) f (map PVar l) PNone (PVar o) (am_set (am_of l STREAM_INPUT am_empty) o STREAM_OUTPUT)).
  destruct (new_invocation_views h2 "Aggregator" (Some k) (cmd_name ci) fl x HNone (HInt o) (HRef (length h1)) cv)
    as (h3 & sl & E3 & U3 & C3 & V3 & K3); auto.
  - unfold invocation_class; cbn; auto.
  - eapply views_unchanged; [|exact U2|exact V1]. intros; eapply view_flag_stable; eauto. now apply unchanged_stable.
  - apply variables_views. eapply variables_unchanged; eauto.
  - runs E3. rewrite map_length. assert (Va : views_aggregator h3 (HRef sl) (k, cv)) by (split; auto).
    destruct k; try exact Va; unfold hbind, hlift.
    + destruct (assert_ (Nat.eqb (length l) 1)); reflexivity.
    + destruct (assert_ (Nat.eqb (length l) 2)); [exact Va|reflexivity].
Qed.

Theorem get_aggregator_views h dir a a' orig c x l o :
  closed h -> views_invocation h orig c -> variables h x l -> views_agg_spec h a a' ->
  same_outcome views_aggregator (get_aggregator_h dir a orig x o h) (get_aggregator dir a' c l o).
Proof.
  intros C V X A. unfold get_aggregator.
  destruct a as [k b|k t b|k s b], a' as [k' b'|k' t' b'|k' s' b']; cbn [views_agg_spec] in A; try contradiction.
  - destruct A as (<- & <-). cbn [get_aggregator_h agg_is_implemented]. destruct b; cbn [negb]; [|exact I].
    unfold get_aggregator_nonfunc_h, get_aggregator_nonfunc. destruct k; try exact I.
    + destruct (make_cat_views h x l o C X) as (h1 & m & E1 & U1 & C1 & V1). runs E1.
      destruct (make_aggregator_from_views h1 m _ CONCATENATE C1 V1) as (h2 & a & E2 & U2 & C2 & V2). runs E2. exact V2.
    + runs (items_variables h x l X). rewrite map_length. unfold hbind, hlift.
      destruct (assert_ (Nat.eqb (length l) 1)); reflexivity.
    + runs (items_variables h x l X). rewrite map_length. unfold hbind, hlift.
      destruct (assert_ (Nat.eqb (length l) 1)); reflexivity.
  - destruct A as (<- & T & P & <-). cbn [get_aggregator_h agg_is_implemented]. destruct b; cbn [negb]; [|exact I].
    now apply aggregator_transformer_views.
  - destruct A as (<- & <- & <-). cbn [get_aggregator_h agg_is_implemented]. destruct b; cbn [negb]; [|exact I].
    now apply aggregator_string_views.
Qed.

Theorem get_2_ary_views h dir a a' i1 x1 l1 i2 x2 l2 o x3 l3 :
  closed h -> variables h x1 l1 -> variables h x2 l2 -> variables h x3 l3 -> views_agg_spec h a a' ->
  match get_2_ary_with_aux_h dir a i1 x1 i2 x2 o x3 h, get_actual_2_ary_aggregator_with_aux dir a' i1 l1 i2 l2 o l3 with
  | (h', Ok x), Ok ag => views_aggregator h' x ag
  | (_, Raise e), Raise e' => e = e'
  | _, _ => False
  end.
Proof.
  intros C X1 X2 X3 A.
  destruct a as [k b|k t b|k s b], a' as [k' b'|k' t' b'|k' s' b']; cbn [views_agg_spec] in A; try contradiction; try reflexivity.
  destruct A as (<- & <- & <-). unfold get_2_ary_with_aux_h, get_actual_2_ary_aggregator_with_aux.
  runs (items_variables h x1 l1 X1). runs (items_variables h x2 l2 X2). rewrite !map_length.
  unfold hbind at 1, hlift at 1. destruct (assert_ (Nat.eqb (length l1) (length l2))) as [u|e]; [|reflexivity]. cbn [bind].
  runs (items_variables h x3 l3 X3). rewrite !map_length.
  unfold hbind at 1, hlift at 1. destruct (assert_ (Nat.eqb (length l1) (length l3))) as [u'|e]; [|reflexivity]. cbn [bind].
  unfold hbind at 1, hlift at 1. destruct (parse dir s) as [ci|ex]; [|reflexivity]. cbn [bind].
  assert (F := new_flags_views h (flag_option_list ci)).
  assert (W := wp_new_flags h (flag_option_list ci) h (inv_start _ _ C)). unfold hbind at 1.
  destruct (new_flags (flag_option_list ci) h) as (h1 & [fl|ex]), (only_flags (flag_option_list ci)) as [f|ey];
    try contradiction; [|subst; reflexivity].
  destruct F as (U1 & V1). destruct W as (I1 & L1 & _). assert (C1 := inv_closed _ _ _ I1). cbn [bind].
  cbv zeta. set (ins := [i1] ++ l1 ++ [i2] ++ l2). set (outs := [o] ++ l3).
  assert (Ei : [HInt i1] ++ map HInt l1 ++ [HInt i2] ++ map HInt l2 = map HInt ins).
  { unfold ins. now rewrite !map_app. }
  assert (Eo : [HInt o] ++ map HInt l3 = map HInt outs) by (unfold outs; now rewrite map_app).
  rewrite Ei, Eo. rewrite new_map_split.
  destruct (new_map_views h1 ins outs) as (h2 & R2 & U2 & V2). runs R2.
  assert (C2 := wp_closed _ _ _ _ _ _ C1 (wp_new_map h1 h1 _ _) R2).
  rewrite <- map_app. set (h3 := h2 ++ [OList (map HInt (ins ++ outs))]).
  assert (A3 : alloc (OList (map HInt (ins ++ outs))) h2 = (h3, Ok (HRef (length h2)))) by reflexivity. runs A3.
  assert (U3 : unchanged h2 h3) by apply unchanged_snoc.
  assert (C3 : closed h3).
  { eapply wp_closed; [exact C2|apply (wp_alloc false h2 h2 (OList (map HInt (ins ++ outs)))); [apply good_ints|exact I]|exact A3]. }
  set (cv := mkCiv (cmd_name ci) f (map PVar (ins ++ outs)) PNone PNone
               (am_of outs STREAM_OUTPUT (am_of ins STREAM_INPUT am_empty))).
  destruct (new_invocation_views h3 "Aggregator" (Some k) (cmd_name ci) fl (HRef (length h2)) HNone HNone (HRef (length h1)) cv)
    as (h4 & sl & E4 & U4 & C4 & V4 & K4); auto.
  - unfold invocation_class; cbn; auto.
  - eapply views_unchanged; [|eapply unchanged_trans; [exact U2|exact U3]|exact V1].
    intros; eapply view_flag_stable; eauto. apply unchanged_stable. eapply unchanged_trans; [exact U2|exact U3].
  - apply variables_views. exists (length h2). split; auto. unfold h3. now rewrite nth_error_snoc, Nat.eqb_refl.
  - eapply views_dict_unchanged; [exact U3|exact V2].
  - rewrite E4. split; auto.
Qed.
