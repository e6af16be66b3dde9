(** * Mappers and aggregators on objects do what MapperAgg.v says *)
From Coq Require Import Lia.
Require Import Verif.PyBase Verif.JsonData Verif.Parser Verif.Access Verif.IOInfo Verif.IOVars
  Verif.Transformers Verif.ParaTypes Verif.MapperAgg Verif.Heap Verif.SpecHeap Verif.HeapFacts
  Verif.HeapSep Verif.HeapCopy Verif.HeapRefine.

(** ** Methods of the invocation *)
Lemma substitute_sim sl dl k keep is_kind h s : obj_rel sl dl (Some k) keep h s ->
  msim sl dl (Some k) keep h s (substitute_h is_kind (HRef sl) (HRef k)) (substitute is_kind).
Proof.
  intros O. unfold substitute_h, substitute. eapply msim_then.
  - eapply msim_flat_map; [|exact O]. now apply fsim_substitute.
  - intros h' (c & l) _ W O'. unfold msim. assert (K := proj2 (proj2 (obj_env _ _ _ _ _ _ O'))).
    unfold captured in K. cbn [snd fst] in *. unfold items, hbind, get_obj. rewrite K.
    destruct l; cbn; auto. split; [apply wstep_refl|auto].
Qed.
Lemma remove_sim sl dl is_kind h c : obj_rel sl dl None [] h (c, []) ->
  match remove_streaming_h is_kind (HRef sl) h, remove_streaming is_kind c with
  | (h', Ok _), (c', Ok _) => wstep sl dl None h h' /\ obj_rel sl dl None [] h' (c', [])
  | (_, Raise x), (_, Raise y) => x = y
  | _, _ => False
  end.
Proof.
  intros O. assert (M := msim_flat_map sl dl None [] _ _ (fsim_remove sl dl None is_kind) h (c, []) O).
  unfold msim in M. unfold remove_streaming_h, remove_streaming.
  destruct (flat_map_h _ _ h) as (h' & [a|x]), (flat_map_anything_non_names _ _) as ((c' & l') & [b|y]); auto.
Qed.
Lemma replace_sim sl dl h c v p w : obj_rel sl dl None [] h (c, []) -> view_val h v = Some p ->
  match replace_var_h (HRef sl) v w h, replace_var c p w with
  | (h', Ok _), (c', Ok _) => wstep sl dl None h h' /\ obj_rel sl dl None [] h' (c', [])
  | (_, Raise x), (_, Raise y) => x = y
  | _, _ => False
  end.
Proof.
  intros O V. assert (F : forall h, view_val h v = Some p \/ (forall z, v <> HInt z) /\ (forall z, p <> PVar z)).
  { intros h'. apply view_val_form in V. destruct V; [left; reflexivity|left; reflexivity|right; split; discriminate..]. }
  assert (M := msim_flat_map sl dl None [] _ _ (fsim_replace sl dl None v p w F) h (c, []) O).
  unfold msim in M. unfold replace_var_h, replace_var, map_var_h, map_var.
  destruct (flat_map_h _ _ h) as (h' & [a|x]), (flat_map_anything_non_names _ _) as ((c' & l') & [b|y]); auto.
Qed.

(** ** From and to [views_invocation] *)
Lemma views_obj h x c : views_invocation h x c -> exists sl dl, x = HRef sl /\ obj_rel sl dl None [] h (c, []).
Proof.
  intros (a & cls & attrs & fl & ol & i & o & am & -> & E & Cl & E1 & E2 & V2 & E3 & V3 & E4 & V4 & E5 & V5 & E6 & V6).
  assert (V6' := V6). destruct V6' as (d & es & -> & _). exists a, d. split; [auto|].
  exists cls, attrs, fl, ol, i, o. cbn [fst snd]. do 14 (split; [now auto|]).
  intros k [Hk|[]]. discriminate.
Qed.
Lemma obj_views sl dl kl keep h s : obj_rel sl dl kl keep h s -> views_invocation h (HRef sl) (fst s).
Proof.
  intros (cls & attrs & fl & ol & i & o & E & Cl & E1 & E2 & V2 & E3 & V3 & E4 & V4 & E5 & V5 & E6 & V6 & K & D).
  exists sl, cls, attrs, fl, ol, i, o, (HRef dl). do 13 (split; [now auto|]). auto.
Qed.
(** New lists are not part of an older object. *)
Lemma obj_extend sl dl h h' c l k keep : obj_rel sl dl None [] h (c, l) -> unchanged h h' ->
  nth_error h' k = Some (OList (map HInt l)) -> (forall j, j = k \/ In j keep -> length h <= j < length h') ->
  obj_rel sl dl (Some k) keep h' (c, l).
Proof.
  intros O U Hk B. assert (Vi := views_invocation_unchanged _ _ _ _ U (obj_views _ _ _ _ _ _ O)).
  destruct O as (cls & attrs & fl & ol & i & o & E & Cl & E1 & E2 & V2 & E3 & V3 & E4 & V4 & E5 & V5 & E6 & V6 & K & D).
  assert (S := unchanged_stable _ _ U).
  exists cls, attrs, fl, ol, i, o. cbn [fst snd] in *.
  split; [rewrite U; auto; apply nth_error_Some; congruence|]. split; [exact Cl|]. split; [exact E1|].
  split; [exact E2|]. split; [eapply views_unchanged; [|exact U|exact V2]; intros; eapply view_flag_stable; eauto|].
  split; [exact E3|]. split; [eapply views_unchanged; [|exact U|exact V3]; intros; eapply view_val_stable; eauto|].
  split; [exact E4|]. split; [eapply view_val_stable; eauto|].
  split; [exact E5|]. split; [eapply view_val_stable; eauto|].
  split; [exact E6|]. split; [eapply views_dict_unchanged; eauto|]. split; [exact Hk|].
  intros j Hj. assert (Bj : length h <= j < length h').
  { apply B. destruct Hj as [Hj|Hj]; [left; congruence|auto]. }
  split; [lia|]. split; intros Q; subst.
  - destruct (views_cell _ _ _ _ _ _ V2 eq_refl) as (_ & _ & L). lia.
  - destruct (views_cell _ _ _ _ _ _ V3 eq_refl) as (_ & _ & L). lia.
Qed.
(** Another list takes the place of the captured one. *)
Lemma obj_swap sl dl h c l l' k k' : obj_rel sl dl (Some k) [k'] h (c, l) ->
  nth_error h k' = Some (OList (map HInt l')) -> obj_rel sl dl (Some k') [] h (c, l').
Proof.
  intros (cls & attrs & fl & ol & i & o & E & Cl & E1 & E2 & V2 & E3 & V3 & E4 & V4 & E5 & V5 & E6 & V6 & K & D) Hk.
  exists cls, attrs, fl, ol, i, o. cbn [fst snd] in *. do 13 (split; [now auto|]). split; [exact Hk|].
  intros j [Hj|[]]. injection Hj as <-. apply D. right. now left.
Qed.

Lemma wp_ok strict h0 A (m : hm A) h (Q : heap -> A -> Prop) h' a :
  wp strict h0 m h Q -> inv strict h0 h -> m h = (h', Ok a) ->
  inv strict h0 h' /\ length h <= length h' /\ Q h' a.
Proof. intros W I E. specialize (W I). now rewrite E in W. Qed.

(** ** Copies and the constructor *)
Lemma deepcopy_ok h v : closed h -> valid h v ->
  exists h' m w, deepcopy v h = (h', Ok w) /\ unchanged h h' /\ closed h' /\ val_rel m v w /\
                 forall l l', memo_get m l = Some l' -> done h h' m l l'.
Proof.
  intros C V. destruct (deepcopy_spec h v C V) as (h' & m & w & E & U & R & D).
  exists h', m, w. split; [auto|]. split; [auto|]. split; [|auto].
  destruct (wp_ok _ _ _ _ _ _ _ _ (wp_deepcopy false h h v V) (inv_start _ _ C) E) as (I & _).
  eapply inv_closed; eauto.
Qed.
Lemma view_val_valid h x p : view_val h x = Some p -> valid h x.
Proof.
  intros V. apply view_val_form in V. destruct V; cbn; auto; apply nth_error_Some; congruence.
Qed.
Lemma views_valid A (view : heap -> hval -> option A) h x l : views view h x l -> valid h x.
Proof. intros (a & vs & -> & E & _). cbn. apply nth_error_Some; congruence. Qed.
Lemma views_dict_valid h x m : views_dict h x m -> valid h x.
Proof. intros (a & vs & -> & E & _). cbn. apply nth_error_Some; congruence. Qed.
Lemma views_invocation_valid h x c : views_invocation h x c -> valid h x.
Proof. intros (a & cls & attrs & fl & ol & i & o & am & -> & E & _). cbn. apply nth_error_Some; congruence. Qed.
Lemma variables_valid h x l : variables h x l -> valid h x.
Proof. intros (a & -> & E). cbn. apply nth_error_Some; congruence. Qed.
Lemma vals_ints h l : vals h (map HInt l) (map PVar l).
Proof. induction l; constructor; auto. Qed.
Lemma variables_views h x l : variables h x l -> views view_val h x (map PVar l).
Proof. intros (a & -> & E). exists a, (map HInt l). split; [auto|]. split; [auto|]. apply vals_ints. Qed.

Lemma new_invocation_views h cls extra cmd fl ol i o am c :
  closed h -> invocation_class cls ->
  cmd = v_cmd c -> views view_flag h fl (v_flags c) -> views view_val h ol (v_ops c) ->
  view_val h i = Some (v_in c) -> view_val h o = Some (v_out c) -> views_dict h am (v_acc c) ->
  exists h' sl, new_invocation cls extra cmd fl ol i o am h = (h', Ok (HRef sl)) /\
    unchanged h h' /\ closed h' /\ views_invocation h' (HRef sl) c /\
    match extra with Some k => attr h' (HRef sl) cls "kind" = Some (HKind k) | None => True end.
Proof.
  intros C Cl -> Vf Vo Vi Vu Va. unfold new_invocation.
  destruct (deepcopy_ok h fl C (views_valid _ _ _ _ _ Vf)) as (h1 & m1 & fl' & D1 & U1 & C1 & R1 & M1).
  assert (S1 := unchanged_stable _ _ U1).
  assert (Vf1 := views_rel h h1 m1 M1 _ view_flag fl fl' _ (view_flag_rel h h1 m1 M1) R1 Vf).
  assert (Vo1 := views_unchanged view_val h h1 ol _ (fun x p => view_val_stable h h1 x p S1) U1 Vo).
  assert (Vi1 := view_val_stable h h1 _ _ S1 Vi). assert (Vu1 := view_val_stable h h1 _ _ S1 Vu).
  assert (Va1 := views_dict_unchanged h h1 _ _ U1 Va).
  destruct (deepcopy_ok h1 ol C1 (views_valid _ _ _ _ _ Vo1)) as (h2 & m2 & ol' & D2 & U2 & C2 & R2 & M2).
  assert (S2 := unchanged_stable _ _ U2).
  assert (Vf2 := views_unchanged view_flag h1 h2 fl' _ (fun x p => view_flag_stable h1 h2 x p S2) U2 Vf1).
  assert (Vo2 := views_rel h1 h2 m2 M2 _ view_val ol ol' _ (view_val_rel h1 h2 m2 M2) R2 Vo1).
  assert (Vi2 := view_val_stable h1 h2 _ _ S2 Vi1). assert (Vu2 := view_val_stable h1 h2 _ _ S2 Vu1).
  assert (Va2 := views_dict_unchanged h1 h2 _ _ U2 Va1).
  destruct (deepcopy_ok h2 i C2 (view_val_valid _ _ _ Vi2)) as (h3 & m3 & i' & D3 & U3 & C3 & R3 & M3).
  assert (S3 := unchanged_stable _ _ U3).
  assert (Vf3 := views_unchanged view_flag h2 h3 fl' _ (fun x p => view_flag_stable h2 h3 x p S3) U3 Vf2).
  assert (Vo3 := views_unchanged view_val h2 h3 ol' _ (fun x p => view_val_stable h2 h3 x p S3) U3 Vo2).
  assert (Vi3 := view_val_rel h2 h3 m3 M3 i i' R3). rewrite Vi2 in Vi3.
  assert (Vu3 := view_val_stable h2 h3 _ _ S3 Vu2).
  assert (Va3 := views_dict_unchanged h2 h3 _ _ U3 Va2).
  destruct (deepcopy_ok h3 o C3 (view_val_valid _ _ _ Vu3)) as (h4 & m4 & o' & D4 & U4 & C4 & R4 & M4).
  assert (S4 := unchanged_stable _ _ U4).
  assert (Vf4 := views_unchanged view_flag h3 h4 fl' _ (fun x p => view_flag_stable h3 h4 x p S4) U4 Vf3).
  assert (Vo4 := views_unchanged view_val h3 h4 ol' _ (fun x p => view_val_stable h3 h4 x p S4) U4 Vo3).
  assert (Vi4 := view_val_stable h3 h4 _ _ S4 Vi3).
  assert (Vu4 := view_val_rel h3 h4 m4 M4 o o' R4). rewrite Vu3 in Vu4.
  assert (Va4 := views_dict_unchanged h3 h4 _ _ U4 Va3).
  destruct (deepcopy_ok h4 am C4 (views_dict_valid _ _ _ Va4)) as (h5 & m5 & am' & D5 & U5 & C5 & R5 & M5).
  assert (S5 := unchanged_stable _ _ U5).
  assert (Vf5 := views_unchanged view_flag h4 h5 fl' _ (fun x p => view_flag_stable h4 h5 x p S5) U5 Vf4).
  assert (Vo5 := views_unchanged view_val h4 h5 ol' _ (fun x p => view_val_stable h4 h5 x p S5) U5 Vo4).
  assert (Vi5 := view_val_stable h4 h5 _ _ S5 Vi4). assert (Vu5 := view_val_stable h4 h5 _ _ S5 Vu4).
  assert (Va5 := views_dict_rel h4 h5 m5 M5 am am' _ R5 Va4).
  clear Vf1 Vf2 Vf3 Vf4 Vo1 Vo2 Vo3 Vo4 Vi1 Vi2 Vi3 Vi4 Vu1 Vu2 Vu3 Vu4 Va1 Va2 Va3 Va4.
  set (ob := OInst cls (match extra with Some k => [("kind", HKind k)] | None => [] end ++
                             [("cmd_name", HStr (v_cmd c)); ("flag_option_list", fl'); ("operand_list", ol');
                              ("implicit_use_of_streaming_input", i'); ("implicit_use_of_streaming_output", o');
                              ("access_map", am')])).
  exists (h5 ++ [ob]), (length h5).
  assert (Ev : new_invocation cls extra (v_cmd c) fl ol i o am h = (h5 ++ [ob], Ok (HRef (length h5)))).
  { unfold new_invocation, hbind. rewrite D1, D2, D3, D4, D5. reflexivity. }
  split; [exact Ev|].
  assert (U : unchanged h (h5 ++ [ob])).
  { eapply unchanged_trans; [exact U1|]. eapply unchanged_trans; [exact U2|]. eapply unchanged_trans; [exact U3|].
    eapply unchanged_trans; [exact U4|]. eapply unchanged_trans; [exact U5|]. apply unchanged_snoc. }
  split; [exact U|]. split.
  { assert (W := wp_new_invocation false h h cls extra (v_cmd c) fl ol i o am).
    destruct (wp_ok _ _ _ _ _ _ _ _ (W ltac:(repeat (constructor; [|]); try constructor;
      eauto using views_valid, view_val_valid, views_dict_valid)) (inv_start _ _ C) Ev) as (I & _).
    eapply inv_closed; eauto. }
  assert (U' := unchanged_snoc h5 ob). assert (S' := unchanged_stable _ _ U').
  assert (En : nth_error (h5 ++ [ob]) (length h5) = Some ob) by (now rewrite nth_error_snoc, Nat.eqb_refl).
  split.
  - eexists (length h5), cls, _, fl', ol', i', o', am'. split; [auto|]. split; [exact En|]. split; [exact Cl|].
    assert (A : forall n, n <> "kind" ->
      assoc_s (match extra with Some k => [("kind", HKind k)] | None => [] end ++
                             [("cmd_name", HStr (v_cmd c)); ("flag_option_list", fl'); ("operand_list", ol');
                              ("implicit_use_of_streaming_input", i'); ("implicit_use_of_streaming_output", o');
                              ("access_map", am')]) n =
      assoc_s [("cmd_name", HStr (v_cmd c)); ("flag_option_list", fl'); ("operand_list", ol');
                              ("implicit_use_of_streaming_input", i'); ("implicit_use_of_streaming_output", o');
                              ("access_map", am')] n).
    { intros n Hn. destruct extra; auto. cbn [app assoc_s]. destruct (String.eqb_spec "kind" n); congruence. }
    rewrite !A by discriminate. cbn [assoc_s String.eqb Ascii.eqb Bool.eqb].
    split; [reflexivity|]. split; [reflexivity|].
    split; [eapply views_unchanged; [|exact U'|exact Vf5]; intros; eapply view_flag_stable; eauto|].
    split; [reflexivity|].
    split; [eapply views_unchanged; [|exact U'|exact Vo5]; intros; eapply view_val_stable; eauto|].
    split; [reflexivity|]. split; [eapply view_val_stable; eauto|].
    split; [reflexivity|]. split; [eapply view_val_stable; eauto|].
    split; [reflexivity|]. eapply views_dict_unchanged; eauto.
  - destruct extra; auto. unfold attr. rewrite En. unfold ob. rewrite String.eqb_refl. reflexivity.
Qed.

(** ** Transformers *)
Lemma pyval_eqb_refl p : pyval_eqb p p = true.
Proof.
  destruct p as [|v|s|[[s|s] a]]; cbn; auto using Z.eqb_refl, String.eqb_refl.
  - rewrite String.eqb_refl. now destruct a.
  - now destruct s, a.
Qed.
Lemma fe_eqb_refl f : (forall n a, f <> FOptVar n a) -> fe_eqb f f = true.
Proof.
  destruct f; intros N; cbn; [apply String.eqb_refl|exfalso; eapply N; reflexivity|].
  now rewrite String.eqb_refl, pyval_eqb_refl.
Qed.
Lemma same_flag_view h x y f k : view_flag h x = Some f -> view_flag h y = Some k -> (forall n a, k <> FOptVar n a) ->
  same_flag h x y = fe_eqb f k.
Proof.
  intros Vx Vy N. assert (X := proj1 (view_flag_form _ _ _) Vx). assert (Y := proj1 (view_flag_form _ _ _) Vy).
  assert (Ex : exists a, x = HRef a) by (destruct X; eauto). assert (Ey : exists b, y = HRef b) by (destruct Y; eauto).
  destruct Ex as (a & ->), Ey as (b & ->). cbn [same_flag]. rewrite Vx, Vy.
  destruct (Nat.eqb_spec a b) as [->|]; auto. rewrite Vx in Vy. injection Vy as ->. cbn.
  symmetry. now apply fe_eqb_refl.
Qed.
Lemma Forall2_filter {A B} (R : A -> B -> Prop) p q l l' :
  Forall2 R l l' -> (forall a b, In b l' -> R a b -> p a = q b) -> Forall2 R (filter p l) (filter q l').
Proof.
  induction 1 as [|a b l l' H F IH]; intros P; cbn; [constructor|].
  rewrite (P a b) by (auto; now left). destruct (q b); [constructor; auto|]; apply IH; intros; apply P; auto; now right.
Qed.
Lemma existsb_views h l0 f0 y k : flags h l0 f0 -> view_flag h y = Some k -> (forall n a, k <> FOptVar n a) ->
  existsb (fun z => same_flag h z y) l0 = existsb (fun f => fe_eqb f k) f0.
Proof.
  intros F V N. induction F as [|x f l l' Hx F IH]; cbn; auto. now rewrite (same_flag_view h x y f k), IH.
Qed.
Lemma filter_names_views p h l f : flags h l f ->
  exists r, filter_names p l h = (h, Ok r) /\ flags h r (filter (fun x => p (fe_name x)) f).
Proof.
  induction 1 as [|x y l f Hx F (r & E & V)]; cbn; [exists []; split; [reflexivity|constructor]|].
  unfold hbind at 1, flag_name_h. rewrite Hx. unfold hbind. rewrite E.
  exists (if p (fe_name y) then x :: r else r). split; [reflexivity|].
  destruct (p (fe_name y)); [constructor; auto|auto].
Qed.
Lemma views_items {A} (view : heap -> hval -> option A) h x l : views view h x l ->
  exists vs, items x h = (h, Ok vs) /\ Forall2 (fun v p => view h v = Some p) vs l.
Proof.
  intros (a & vs & -> & E & Q). exists vs. split; auto. unfold items, hbind, get_obj. now rewrite E.
Qed.
Lemma views_transformer_unchanged h h' : unchanged h h' -> forall t u, views_transformer h t u -> views_transformer h' t u.
Proof.
  intros U. assert (F : forall x l, views view_flag h x l -> views view_flag h' x l).
  { intros x l. eapply views_unchanged; [|exact U]. intros; eapply view_flag_stable; eauto. now apply unchanged_stable. }
  fix IH 3. intros t u [| | | | | |ts us Q]; try constructor; auto.
  induction Q; constructor; auto.
Qed.
Lemma views_transformer_valid h : forall t u, views_transformer h t u -> valid_transformer h t.
Proof.
  fix IH 3. intros t u [| | | | | |ts us Q]; try constructor; eauto using views_valid.
  induction Q; constructor; eauto.
Qed.
Lemma new_list_views h l (f : list flag_el) : flags h l f -> views view_flag (h ++ [OList l]) (HRef (length h)) f.
Proof.
  intros F. exists (length h), l. split; [auto|]. split; [now rewrite nth_error_snoc, Nat.eqb_refl|].
  eapply flags_stable; [apply unchanged_stable, unchanged_snoc|exact F].
Qed.
Lemma transform_views : forall t u h x l,
  views_transformer h t u -> plain_transformer u -> views view_flag h x l ->
  exists h' y, transform_h t x h = (h', Ok y) /\ unchanged h h' /\ views view_flag h' y (transform u l).
Proof.
  fix IH 1. intros t u h x l T P V. destruct t; cbn [transform_h].
  - inversion T; subst. exists h, x. split; [reflexivity|]. split; [apply unchanged_refl|exact V].
  - inversion T as [|? la Va| | | | |]; subst. inversion P as [|? Pa| | | | |]; subst.
    destruct (views_items _ _ _ _ Va) as (vs & E1 & Q1). destruct (views_items _ _ _ _ V) as (vs0 & E0 & Q0).
    unfold hbind at 1. rewrite E1. unfold hbind at 1. rewrite E0.
    eexists _, _. split; [reflexivity|]. split; [apply unchanged_snoc|]. apply new_list_views. cbn [transform].
    apply Forall2_app; [exact Q0|]. eapply Forall2_filter; [exact Q1|].
    intros a b Hb R. cbv beta in R. rewrite (existsb_views h vs0 l a b); auto. intros n v ->. now apply (Pa n v).
  - inversion T; subst. destruct (views_items _ _ _ _ V) as (vs0 & E0 & Q0). unfold hbind at 1. rewrite E0.
    destruct (filter_names_views (fun n => negb (mem n list_to_remove)) h vs0 l Q0) as (r & E & Q).
    unfold hbind at 1. rewrite E. eexists _, _. split; [reflexivity|]. split; [apply unchanged_snoc|].
    apply new_list_views. exact Q.
  - inversion T; subst. destruct (views_items _ _ _ _ V) as (vs0 & E0 & Q0). unfold hbind at 1. rewrite E0.
    destruct (filter_names_views (fun n => mem n list_filter) h vs0 l Q0) as (r & E & Q).
    unfold hbind at 1. rewrite E. eexists _, _. split; [reflexivity|]. split; [apply unchanged_snoc|].
    apply new_list_views. exact Q.
  - inversion T; subst. eexists _, _. split; [reflexivity|]. split; [apply unchanged_snoc|].
    apply new_list_views. constructor.
  - inversion T; subst. exists h, list_custom. split; [reflexivity|]. split; [apply unchanged_refl|assumption].
  - inversion T as [| | | | | |? us Q]; subst. inversion P as [| | | | | |? Pu]; subst. cbn [transform].
    clear T P. revert h x l us Q Pu V.
    induction list_transformers as [|t ts IHts]; intros h x l us Q Pu V; inversion Q as [|? u ? us' Q1 Q2]; subst.
    + exists h, x. split; [reflexivity|]. split; [apply unchanged_refl|exact V].
    + apply Forall_cons_iff in Pu as (Pu1 & Pu2).
      destruct (IH t u h x l Q1 Pu1 V) as (h1 & y & E & U & V1).
      destruct (IHts h1 y (transform u l) us') as (h2 & z & E2 & U2 & V2); auto.
      { clear -Q2 U. induction Q2; constructor; auto. eapply views_transformer_unchanged; eauto. }
      exists h2, z. split; [unfold hbind at 1; rewrite E; exact E2|]. split; [eapply unchanged_trans; eauto|exact V2].
Qed.
