(** * The loop of get_inferred_parallelizer_list on objects *)
From Coq Require Import Lia ZArith.
Require Import Verif.PyBase Verif.ParaTypes Verif.Heap Verif.HeapEq Verif.HeapInfer Verif.SpecLists Verif.SpecHeap Verif.SpecHeapEq Verif.SpecInfer
  Verif.HeapFacts Verif.HeapSep Verif.HeapCopy Verif.HeapEqFacts Verif.HeapEqProps Verif.P_Heap Verif.P_HeapEq.

(** ** Reachability *)
Lemma reaches_trans h v l k : reaches h v l -> reaches h (HRef l) k -> reaches h v k.
Proof. induction 1 as [|l o v l' E I R IH]; auto. intros H. eapply reaches_slot; eauto. Qed.
Lemma grounded_acyclic h v : grounded h v ->
  forall l o w, v = HRef l -> nth_error h l = Some o -> In w (slots o) -> ~ reaches h w l.
Proof.
  induction 1 as [v N|l o E G IH]; intros l1 o1 w E1 E2 I R; [subst; eapply N; reflexivity|].
  injection E1 as <-. rewrite E in E2. injection E2 as <-.
  inversion R as [l2 L2|l2 o2 u l3 F J R2]; subst.
  - eapply (IH _ I); eauto.
  - apply (IH _ I _ _ _ eq_refl F J). eapply reaches_trans; [exact R2|].
    eapply reaches_slot; [exact E|exact I|]. constructor. apply nth_error_Some. congruence.
Qed.
Lemma agree_reaches h h' v l : closed h -> reaches h' v l -> valid h v -> agree h h' v -> reaches h v l.
Proof.
  intros C. induction 1 as [l L|l o v l' E I R IH]; intros V A; cbn in V; [now constructor|].
  rewrite (A l) in E by now constructor. eapply reaches_slot; eauto. apply IH.
  - assert (W := C _ (nth_error_In _ _ E)). rewrite Forall_forall in W. auto.
  - eapply agree_slot; eauto.
Qed.
Lemma same_agree h h' v w : same h v w -> agree h h' v -> agree h h' w -> same h' v w.
Proof.
  induction 1 as [v|a b l l' A B L S IH|a b l l' A B K S IH|a b c l l' A B N K S IH]; intros X Y; [constructor|..].
  - eapply same_list; [eapply agree_here; eauto|eapply agree_here; eauto|exact L|]. intros i v w E F.
    apply (IH i v w E F); [apply (agree_slot h h' a _ v X A)|apply (agree_slot h h' b _ w Y B)]; cbn; eapply nth_error_In; eauto.
  - eapply same_dict; [eapply agree_here; eauto|eapply agree_here; eauto|exact K|]. intros k v w E F.
    apply (IH k v w E F); [apply (agree_slot h h' a _ v X A)|apply (agree_slot h h' b _ w Y B)]; cbn; eapply HeapFacts.assoc_z_in; eauto.
  - eapply same_instance; [eapply agree_here; eauto|eapply agree_here; eauto|exact N|exact K|]. intros k v w E F.
    apply (IH k v w E F); [apply (agree_slot h h' a _ v X A)|apply (agree_slot h h' b _ w Y B)]; cbn; eapply HeapFacts.assoc_s_in; eauto.
Qed.
Lemma grounded_agree h h' v : grounded h v -> agree h h' v -> grounded h' v.
Proof.
  induction 1 as [v N|l o E G IH]; intros A; [now constructor|]. eapply gr_object; [eapply agree_here; eauto|].
  intros v I. apply IH; [exact I|]. eapply agree_slot; eauto.
Qed.
Lemma without_eq_agree h h' v : closed h -> valid h v -> agree h h' v -> reaches_without_eq h' v -> reaches_without_eq h v.
Proof.
  intros C V A (l & c & attrs & R & E & I). pose proof (agree_reaches h h' v l C R V A) as R'.
  exists l, c, attrs. rewrite A in E by exact R'. auto.
Qed.
Lemma splits_by_agree h h' k x : agree h h' x -> splits_by h k x -> splits_by h' k x.
Proof.
  intros A (a & attrs & s & -> & E & S & (b & -> & F)). exists a, attrs, (HRef b). split; [reflexivity|].
  split; [eapply agree_here; eauto|]. split; [exact S|]. exists b. split; [reflexivity|].
  eapply agree_here; [|exact F]. eapply agree_attr; eauto.
Qed.
Lemma splits_by_fun h k k' x : splits_by h k x -> splits_by h k' x -> k = k'.
Proof.
  intros (a & l & s & -> & E & S & (b & -> & F)) (a' & l' & s' & X & E' & S' & (b' & -> & F')).
  injection X as <-. rewrite E in E'. injection E' as <-. rewrite S in S'. injection S' as <-. rewrite F in F'. now injection F' as <-.
Qed.

(** ** The copy with another splitter *)
(** [same_but_splitter], with [same] for the comparison *)
Definition like (h : heap) (k : splitter) (p q : hval) : Prop :=
  exists a b l l', p = HRef a /\ nth_error h a = Some (OInst "Parallelizer" l) /\
    q = HRef b /\ nth_error h b = Some (OInst "Parallelizer" l') /\
    map fst l = map fst l' /\
    (forall n v w, n <> "splitter" -> assoc_s l n = Some v -> assoc_s l' n = Some w -> same h v w) /\
    splits_by h k q.
Lemma like_agree h h' k p q : agree h h' p -> agree h h' q -> like h k p q -> like h' k p q.
Proof.
  intros A B (a & b & l & l' & -> & E & -> & F & K & S & P). exists a, b, l, l'.
  split; [reflexivity|]. split; [eapply agree_here; eauto|]. split; [reflexivity|]. split; [eapply agree_here; eauto|].
  split; [exact K|]. split; [|eapply splits_by_agree; eauto]. intros n v w N X Y.
  apply (same_agree h); [apply (S n v w N X Y)|apply (agree_attr h h' a _ l n v A E X)|apply (agree_attr h h' b _ l' n w B F Y)].
Qed.
Lemma like_spec h k p q : proper h -> grounded h p -> like h k p q -> same_but_splitter h k p q.
Proof.
  intros P G (a & b & l & l' & -> & E & -> & F & K & S & Sp). exists a, b, l, l'. repeat (split; [now auto|]).
  split; [|exact Sp]. intros n v w N X Y. apply C65_exact; [exact P| |eapply S; eauto].
  inversion G as [z Z|z o E' G']; subst; [exfalso; eapply Z; reflexivity|]. rewrite E in E'. injection E' as <-. apply G'. cbn. eapply HeapFacts.assoc_s_in; eauto.
Qed.

Lemma copy_grounded h h' m : (forall l l', memo_get m l = Some l' -> done h h' m l l' /\ length h <= l') ->
  forall v, grounded h v -> forall w, val_rel m v w -> grounded h' w.
Proof.
  intros D. induction 1 as [v N|l o E G IH]; intros w V.
  - constructor. intros l ->. destruct v; cbn in V; try discriminate. eapply N; reflexivity.
  - cbn in V. destruct (memo_get m l) as [l'|] eqn:M; [subst w|contradiction]. destruct (D _ _ M) as ((o' & vs & A & B & C) & _).
    rewrite E in A. injection A as <-. eapply gr_object; [exact B|]. intros v I. apply slots_refill in I.
    clear -C IH I. induction C as [|x y l1 l2 V C IHC]; [contradiction|]. destruct I as [->|I].
    + eapply IH; [now left|exact V].
    + apply IHC; [|exact I]. intros z J. apply IH. now right.
Qed.
Lemma copy_classes h h' m : (forall l l', memo_get m l = Some l' -> done h h' m l l' /\ length h <= l') ->
  forall w l', reaches h' w l' -> forall v, val_rel m v w -> forall c attrs, nth_error h' l' = Some (OInst c attrs) ->
  exists l attrs', reaches h v l /\ nth_error h l = Some (OInst c attrs').
Proof.
  intros D. induction 1 as [l' L|l' o w k E I R IH]; intros v V c attrs X; destruct v; cbn in V; try discriminate;
    destruct (memo_get m l) as [l1|] eqn:M; try contradiction; injection V as ->; destruct (D _ _ M) as ((o' & vs & A & B & C) & _).
  - rewrite B in X. injection X as X. destruct o'; cbn in X; try discriminate. injection X as -> _. exists l, attrs0. split; [|exact A].
    constructor. apply nth_error_Some. congruence.
  - rewrite B in E. injection E as <-. apply slots_refill in I.
    assert (exists v, In v (slots o') /\ val_rel m v w) as (v & Iv & Vv).
    { clear -C I. induction C as [|y z l1 l2 V C IH]; [contradiction|]. destruct I as [->|I]; [exists y; cbn; auto|].
      destruct (IH I) as (v & J & W). exists v; cbn; auto. }
    destruct (IH v Vv c attrs X) as (l2 & at2 & R2 & E2). exists l2, at2. split; [|exact E2]. eapply reaches_slot; eauto.
Qed.
Lemma set_s_names l k v : In k (map fst l) -> map fst (set_s l k v) = map fst l.
Proof.
  induction l as [|(k' & w) l IH]; cbn; [contradiction|]. destruct (String.eqb_spec k' k) as [->|N]; [reflexivity|].
  intros [E|I]; [contradiction|]. cbn. now rewrite IH.
Qed.
Lemma combine_names l (vs : list hval) : length l = length vs -> map fst (combine (map fst l) vs) = map (@fst string hval) l.
Proof. revert vs. induction l as [|x l IH]; intros [|v vs]; cbn; try discriminate; auto. intros [= L]. now rewrite IH. Qed.
Lemma assoc_s_name l k v : assoc_s l k = Some v -> In k (map fst l).
Proof. induction l as [|(k' & w) l IH]; cbn; [discriminate|]. destruct (String.eqb_spec k' k); auto. Qed.

Lemma wp_unwrap h p : valid h p ->
  wp true h (make_parallelizer_round_robin_with_unwrap_from_other_h p) h (fun h' q => fresh h h' q).
Proof.
  intros V. unfold make_parallelizer_round_robin_with_unwrap_from_other_h. bind. eapply wp_mono; [|now apply wp_deepcopy].
  intros h1 w _ F L1. bind. eapply wp_mono; [|apply wp_alloc].
  - intros h2 s L2 G _. bind. eapply wp_mono; [|apply wp_set_attr].
    + intros h3 [] L3 _ _. apply wp_ret. eapply fresh_mono; [|exact F]. lia.
    + eapply fresh_mono; [|exact F]. lia.
    + now apply fresh_good.
    + discriminate.
  - repeat constructor.
  - cbn. discriminate.
Qed.
Lemma unwrap_spec h p k : closed h -> proper h -> valid h p -> grounded h p -> ~ reaches_without_eq h p -> splits_by h k p ->
  exists h' q, make_parallelizer_round_robin_with_unwrap_from_other_h p h = (h', Ok q) /\
    unchanged h h' /\ closed h' /\ proper h' /\ like h' ROUND_ROBIN_UNWRAP_FLAG p q /\ valid h' q /\
    grounded h' q /\ ~ reaches_without_eq h' q /\
    forall l, reaches h' q l -> length h <= l.
Proof.
  intros C P V G W (a & attrs & s & -> & E & S & SP).
  destruct (deepcopy_fresh h (HRef a) C V) as (h1 & m & w & Ed & U & R & D).
  pose proof (deepcopy_proper _ _ _ _ P Ed) as P1. pose proof R as R'. cbn in R'.
  destruct (memo_get m a) as [b|] eqn:M; [subst w|contradiction].
  destruct (D _ _ M) as ((o & vs & A & B & F) & Lb). rewrite E in A. injection A as <-. cbn [refill slots] in *.
  assert (Hb : b < length h1) by (apply nth_error_Some; congruence).
  set (l1 := combine (map fst attrs) vs) in *.
  set (sp := OInst "Splitter" [("kind", HSplit ROUND_ROBIN_UNWRAP_FLAG)]).
  set (l2 := set_s l1 "splitter" (HRef (length h1))).
  set (h3 := update (h1 ++ [sp]) b (OInst "Parallelizer" l2)).
  assert (Run : make_parallelizer_round_robin_with_unwrap_from_other_h (HRef a) h = (h3, Ok (HRef b))).
  { unfold make_parallelizer_round_robin_with_unwrap_from_other_h, hbind. rewrite Ed.
    unfold make_splitter_round_robin_with_unwrap_h, new_splitter_h, alloc, set_attr, hbind, get_obj.
    rewrite nth_error_app1, B by exact Hb. reflexivity. }
  exists h3, (HRef b). split; [exact Run|].
  pose proof (wp_unwrap h (HRef a) V (inv_start true h C)) as WP. rewrite Run in WP. destruct WP as (I & L & Fr).
  split; [apply I|]. split; [eapply inv_closed; eauto|].
  assert (Names : map fst l1 = map fst attrs).
  { apply combine_names. rewrite <- (map_length snd attrs). eapply f2_length; eauto. }
  assert (Names2 : map fst l2 = map fst attrs).
  { unfold l2. rewrite set_s_names; [exact Names|]. rewrite Names. eapply assoc_s_name; eauto. }
  assert (PA : NoDup (map fst attrs)) by exact (P _ (nth_error_In _ _ E)).
  split.
  { apply proper_forall, update_forall; [apply Forall_app; split; [now apply proper_forall|]|].
    - repeat constructor. cbn. tauto.
    - cbn. now rewrite Names2. }
  assert (E3b : nth_error h3 b = Some (OInst "Parallelizer" l2)).
  { apply update_same. rewrite app_length. lia. }
  assert (E3 : forall l, l < length h1 -> l <> b -> nth_error h3 l = nth_error h1 l).
  { intros l X N. unfold h3. rewrite update_other by auto. now apply nth_error_app1. }
  assert (Ub : unchanged h h3) by apply I.
  assert (Slot : forall w, In w (slots (OInst "Parallelizer" l1)) -> agree h1 h3 w).
  { intros w Iw l Rl. apply E3; [eapply reaches_bound; eauto|]. intros ->.
    apply (grounded_acyclic h1 (HRef b) (copy_grounded h h1 m D _ G _ R) b _ w eq_refl B Iw Rl). }
  assert (C1 : closed h1).
  { pose proof (wp_deepcopy true h h (HRef a) V (inv_start true h C)) as WC. rewrite Ed in WC. eapply inv_closed; apply WC. }
  assert (E3s : nth_error h3 (length h1) = Some sp).
  { unfold h3. rewrite update_other by lia. rewrite nth_error_app2, Nat.sub_diag by lia. reflexivity. }
  assert (In2 : forall w, In w (slots (OInst "Parallelizer" l2)) -> w = HRef (length h1) \/ In w (slots (OInst "Parallelizer" l1))).
  { intros w Iw. now apply set_s_in in Iw. }
  split; [|split; [apply Fr|split; [|split]]].
  - exists a, b, attrs, l2. split; [reflexivity|]. split; [rewrite Ub; [exact E|exact V]|]. split; [reflexivity|]. split; [exact E3b|].
    split; [now rewrite Names2|]. split.
    + intros n v w N X Y. unfold l2 in Y. rewrite assoc_set_s in Y. destruct (String.eqb_spec "splitter" n) as [Q|_]; [congruence|].
      pose proof (assoc_s_combine m attrs n vs F) as T. fold l1 in T. rewrite X, Y in T. cbn [opt_rel] in T.
      assert (Iv : In v (slots (OInst "Parallelizer" attrs))) by (cbn; eapply HeapFacts.assoc_s_in; eauto).
      assert (Vv : valid h v) by (assert (Z := C _ (nth_error_In _ _ E)); rewrite Forall_forall in Z; auto).
      assert (Gv : grounded h v).
      { inversion G as [z Z|z o E' G']; subst; [exfalso; eapply Z; reflexivity|]. rewrite E in E'. injection E' as <-. auto. }
      assert (S1 : same h1 v w).
      { apply (copy_same h h1 m P U D v Gv); [|exact T]. intros (x & c & at_ & RX & X1 & X2). apply W. exists x, c, at_. split; [|auto]. eapply reaches_slot; eauto. }
      eapply same_agree; [exact S1| |].
      * intros l Rl. pose proof (reaches_bound _ _ _ (reaches_unchanged h h1 C U v l Rl Vv)) as Bl. apply E3; [eapply reaches_bound; eauto|lia].
      * apply Slot. cbn. apply (HeapFacts.assoc_s_in _ _ _ Y).
    + exists b, l2, (HRef (length h1)). split; [reflexivity|]. split; [exact E3b|]. split.
      * unfold l2. now rewrite assoc_set_s.
      * exists (length h1). split; [reflexivity|exact E3s].
  - eapply gr_object; [exact E3b|]. intros w Iw. apply In2 in Iw as [->|Iw].
    + eapply gr_object; [exact E3s|]. cbn. intros z [<-|[]]. constructor. discriminate.
    + eapply grounded_agree; [|now apply Slot]. pose proof (copy_grounded h h1 m D _ G _ R) as GB.
      inversion GB as [z Z|z o E' G']; subst; [exfalso; eapply Z; reflexivity|]. rewrite B in E'. injection E' as <-. auto.
  - intros (l & c & at_ & Rl & Xl & Ic). inversion Rl as [l' Ll|l' o w l'' El Iw Rw]; subst.
    + rewrite E3b in Xl. injection Xl as <- <-. cbn in Ic. decompose [or] Ic; try discriminate; contradiction.
    + rewrite E3b in El. injection El as <-. apply In2 in Iw as [->|Iw].
      * inversion Rw as [l' Ll|l' o w l'' El Iw Rw']; subst.
        -- rewrite E3s in Xl. injection Xl as <- <-. cbn in Ic. decompose [or] Ic; try discriminate; contradiction.
        -- rewrite E3s in El. injection El as <-. cbn in Iw. destruct Iw as [<-|[]]. inversion Rw'.
      * assert (Vw : valid h1 w) by (assert (Z := C1 _ (nth_error_In _ _ B)); rewrite Forall_forall in Z; auto).
        pose proof (agree_reaches h1 h3 w l C1 Rw Vw (Slot w Iw)) as Rw1. rewrite (Slot w Iw l Rw1) in Xl.
        destruct (copy_classes h h1 m D (HRef b) l) with (v := HRef a) (c := c) (attrs := at_) as (l4 & at4 & R4 & E4); [eapply reaches_slot; eauto|exact R|exact Xl|].
        apply W. exists l4, c, at4. auto.
  - apply (newly_reaches h h3 (HRef b)). exists h. split; [lia|]. split; [exact I|exact Fr].
Qed.

(** ** The loop *)
Lemma bool_cases (b : bool) : b = true \/ b = false.
Proof. destruct b; auto. Qed.
Local Notation kept := SpecLists.kept.
Lemma kept_snoc (P : hval -> Prop) l l' p : kept P l l' -> P p -> kept P (l ++ [p]) (l' ++ [p]).
Proof. induction 1; intros H'; cbn; try (constructor; auto; fail). constructor; [auto|constructor]. Qed.
Lemma kept_snoc_no (P : hval -> Prop) l l' p : kept P l l' -> ~ P p -> kept P (l ++ [p]) l'.
Proof. induction 1; intros H'; cbn; try (constructor; auto; fail). apply kept_no; [auto|constructor]. Qed.
Lemma kept_in (P : hval -> Prop) l l' p : kept P l l' -> In p l' -> In p l.
Proof. induction 1; cbn; intuition. Qed.
Lemma pairs_snoc (R : hval -> hval -> Prop) l p : ForallOrdPairs R l -> (forall q, In q l -> R q p) -> ForallOrdPairs R (l ++ [p]).
Proof.
  induction 1 as [|q l F P IH]; intros A; cbn; [repeat constructor|]. constructor.
  - apply Forall_app. split; [exact F|]. repeat constructor. apply A. now left.
  - apply IH. intros r I. apply A. now right.
Qed.
Lemma pairs_impl (R R' : hval -> hval -> Prop) l : ForallOrdPairs R l -> (forall p q, In p l -> In q l -> R p q -> R' p q) -> ForallOrdPairs R' l.
Proof.
  induction 1 as [|q l F P IH]; intros A; constructor.
  - rewrite Forall_forall in *. intros r I. apply A; [now left|now right|auto].
  - apply IH. intros p r I J. apply A; now right.
Qed.
Lemma forall2_impl (R R' : hval -> hval -> Prop) l l' : Forall2 R l l' -> (forall p q, In p l -> In q l' -> R p q -> R' p q) -> Forall2 R' l l'.
Proof.
  induction 1 as [|p q l l' X F IH]; intros A; constructor.
  - apply A; [now left|now left|exact X].
  - apply IH. intros p' q' I J. apply A; now right.
Qed.
Section Loop.
  Context (h : heap) (x : hval) (b : bool) (la : loc) (ps : list hval) (OK : info_ok h x b la ps).
  Let chunks (p : hval) : Prop := b = true /\ splits_by h CONSEC_CHUNKS p.
  Record state (hk : heap) (done : list hval) (sel qs : list hval) : Prop := mkState
    { st_closed : closed hk; st_proper : proper hk; st_length : length h <= length hk;
      st_frame : forall l, l < length h -> l <> la -> nth_error hk l = nth_error h l;
      st_list : nth_error hk la = Some (OList (ps ++ qs));
      st_sel : kept chunks done sel;
      st_like : Forall2 (like hk ROUND_ROBIN_UNWRAP_FLAG) sel qs;
      st_new : forall q, In q qs -> own_value hk la q /\ forall l, reaches hk q l -> length h <= l;
      st_disjoint : ForallOrdPairs (disjoint hk) qs }.

  Lemma la_bound : la < length h.
  Proof. destruct OK as (_ & _ & _ & E & _). apply nth_error_Some. congruence. Qed.
  Lemma own p : In p ps -> own_value h la p /\ exists k, splits_by h k p.
  Proof. destruct OK as (_ & _ & _ & _ & F). rewrite Forall_forall in F. auto. Qed.
  Lemma agree_old hk done sel qs p : state hk done sel qs -> In p ps -> agree h hk p.
  Proof.
    intros S I l R. apply own in I as ((_ & _ & _ & N) & _). apply S; [eapply reaches_bound; eauto|]. intros ->. contradiction.
  Qed.
  Lemma agree_next hk done sel qs h1 v : state hk done sel qs -> ~ reaches hk v la ->
    (forall l, l < length hk -> l <> la -> nth_error h1 l = nth_error hk l) -> agree hk h1 v.
  Proof. intros S N F l R. apply F; [eapply reaches_bound; eauto|]. intros ->. contradiction. Qed.

  (** one more parallelizer is added *)
  Lemma add_step hk done sel qs p : state hk done sel qs -> In p ps -> (forall p, In p done -> In p ps) -> chunks p ->
    exists h1 q, (run! q := make_parallelizer_round_robin_with_unwrap_from_other_h p in list_append (HRef la) q) hk = (h1, Ok tt) /\
      state h1 (done ++ [p]) (sel ++ [p]) (qs ++ [q]).
  Proof.
    intros S I ID (Hb & Ch). pose proof (agree_old _ _ _ _ p S I) as Ag. destruct (own p I) as ((V & G & W & NR) & _).
    pose proof la_bound as LB. pose proof (st_length _ _ _ _ S) as LH.
    assert (C0 : closed h) by apply OK.
    assert (Vk : valid hk p) by (eapply valid_mono; [exact LH|exact V]).
    destruct (unwrap_spec hk p CONSEC_CHUNKS) as (h3 & q & Run & U & C3 & P3 & Lk & Vq & Gq & Wq & Nq).
    { apply S. } { apply S. } { exact Vk. } { eapply grounded_agree; eauto. }
    { intros X. apply W. eapply without_eq_agree; eauto. } { eapply splits_by_agree; eauto. }
    assert (Ela : nth_error h3 la = Some (OList (ps ++ qs))) by (rewrite U by lia; apply S).
    pose proof (unchanged_length _ _ U) as L3.
    set (h1 := update h3 la (OList ((ps ++ qs) ++ [q]))).
    assert (F1 : forall l, l < length hk -> l <> la -> nth_error h1 l = nth_error hk l).
    { intros l X N. unfold h1. rewrite update_other by auto. now apply U. }
    assert (F3 : forall l, l <> la -> nth_error h1 l = nth_error h3 l).
    { intros l N. unfold h1. now rewrite update_other by auto. }
    assert (Len : length h1 = length h3) by apply update_length.
    assert (NoLa : forall p, In p ps -> ~ reaches hk p la).
    { intros r J X. destruct (own r J) as ((Vr & _ & _ & Nr) & _). apply Nr. eapply agree_reaches; [exact C0|exact X|exact Vr|]. eapply agree_old; eauto. }
    assert (NoLaQ : forall r, In r qs -> ~ reaches hk r la).
    { intros r J X. apply (st_new _ _ _ _ S r J) in X. lia. }
    assert (NoLa3 : ~ reaches h3 q la) by (intros X; apply Nq in X; lia).
    assert (NoLa3p : ~ reaches h3 p la).
    { intros X. apply (NoLa p I). eapply reaches_unchanged; [apply S|exact U|exact X|exact Vk]. }
    assert (Agq : agree h3 h1 q) by (intros l R; apply F3; intros ->; contradiction).
    assert (Agp : agree h3 h1 p) by (intros l R; apply F3; intros ->; contradiction).
    assert (Agk : forall r, ~ reaches hk r la -> agree hk h1 r) by (intros r N; eapply agree_next; eauto).
    assert (Old : forall r l, In r qs -> reaches h1 r l -> reaches hk r l).
    { intros r l J R. eapply agree_reaches; [apply S|exact R|apply (st_new _ _ _ _ S r J)|]. apply Agk. auto. }
    assert (Newq : forall l, reaches h1 q l -> reaches h3 q l).
    { intros l R. eapply agree_reaches; eauto. }
    exists h1, q. split.
    { unfold hbind. rewrite Run. unfold list_append, hbind, get_obj. rewrite Ela. reflexivity. }
    constructor.
    - intros o J. apply In_nth_error in J as (l & J).
      enough (Q : Forall (valid h3) (slots o)) by (eapply Forall_impl; [|exact Q]; intros v; apply valid_mono; lia).
      destruct (Nat.eq_dec l la) as [->|N].
      + unfold h1 in J. rewrite update_same in J by lia. injection J as <-. cbn. apply Forall_app. split.
        * exact (C3 _ (nth_error_In _ _ Ela)).
        * now constructor.
      + rewrite F3 in J by exact N. exact (C3 _ (nth_error_In _ _ J)).
    - apply proper_forall, update_forall; [now apply proper_forall|exact Logic.I].
    - lia.
    - intros l X N. rewrite F1 by lia. now apply S.
    - unfold h1. rewrite update_same by lia. now rewrite app_assoc.
    - apply kept_snoc; [apply S|]. split; auto.
    - apply Forall2_app; [|constructor; [|constructor]].
      + eapply forall2_impl; [apply S|]. intros r r' J J'. apply like_agree; apply Agk; auto.
        apply NoLa, ID. eapply kept_in; [apply S|exact J].
      + eapply like_agree; eauto.
    - intros r J. apply in_app_iff in J as [J|[<-|[]]].
      + destruct (st_new _ _ _ _ S r J) as ((V1 & V2 & V3 & V4) & V5). split; [|intros l R; apply V5; auto]. split; [eapply valid_mono; [|exact V1]; lia|].
        split; [eapply grounded_agree; eauto|]. split; [|intros R; apply V4; auto]. intros R. apply V3.
        eapply without_eq_agree; [apply S|exact V1|apply Agk; exact V4|exact R].
      + split; [split; [eapply valid_mono; [|exact Vq]; lia|]|].
        { split; [eapply grounded_agree; eauto|]. split; [|auto]. intros R. apply Wq. eapply without_eq_agree; eauto. } intros l R. apply Newq, Nq in R. lia.
    - apply pairs_snoc.
      + eapply pairs_impl; [apply S|]. intros r r' J J' D l R R'. apply (D l); auto.
      + intros r J l R R'. apply Old in R; [|exact J]. apply reaches_bound in R. apply Newq, Nq in R'. lia.
  Qed.

  Lemma self_attr hk done sel qs : state hk done sel qs -> forall n v a attrs, x = HRef a -> nth_error h a = Some (OInst "ParallelizabilityInfo" attrs) ->
    assoc_s attrs n = Some v -> get_attr x n hk = (hk, Ok v).
  Proof.
    intros S n v a attrs -> E F. unfold get_attr, hbind, get_obj. rewrite (st_frame _ _ _ _ S a).
    - rewrite E. cbn [snd]. rewrite F. reflexivity.
    - apply nth_error_Some. congruence.
    - intros ->. destruct OK as (_ & _ & _ & E' & _). congruence.
  Qed.
  Lemma consec_step hk p k : splits_by hk k p ->
    (run! s := get_attr p "splitter" in is_splitter_consec_chunks_h s) hk = (hk, Ok (is_splitter_consec_chunks k)).
  Proof.
    intros (a & attrs & s & -> & E & S & (c & -> & F)). unfold get_attr, hbind, get_obj. rewrite E, S.
    unfold is_splitter_consec_chunks_h, get_attr, hbind, get_obj, hret. rewrite F. cbn. destruct k; reflexivity.
  Qed.
  Lemma items_la hk done sel qs : state hk done sel qs -> items (HRef la) hk = (hk, Ok (ps ++ qs)).
  Proof. intros S. unfold items, hbind, get_obj. rewrite (st_list _ _ _ _ S). reflexivity. Qed.
  Lemma nth_app A (l : list A) p l' : nth_error (l ++ p :: l') (length l) = Some p.
  Proof. now rewrite nth_error_app2, Nat.sub_diag by lia. Qed.

  Lemma first_phase rest : forall done hk sel qs, ps = done ++ rest -> state hk done sel qs ->
    exists h1 sel' qs', state h1 ps sel' qs' /\
      forall fuel, infer_loop_h (length rest + fuel) (length done) x (HRef la) (HRef la) hk = infer_loop_h fuel (length ps) x (HRef la) (HRef la) h1.
  Proof.
    induction rest as [|p rest IH]; intros done hk sel qs E S.
    - rewrite app_nil_r in E. subst done. exists hk, sel, qs. split; [exact S|reflexivity].
    - pose proof OK as OK'. destruct OK' as (_ & _ & (a & attrs & Ex & Ea & _ & Ec) & _ & _).
      assert (Ip : In p ps) by (rewrite E; apply in_elt).
      destruct (own p Ip) as (_ & (k & Sk)). pose proof (splits_by_agree _ _ _ _ (agree_old _ _ _ _ _ S Ip) Sk) as Sk'.
      assert (Nth : nth_error (ps ++ qs) (length done) = Some p) by (rewrite E, <- app_assoc; apply nth_app).
      assert (D : exists h1 sel' qs', state h1 (done ++ [p]) sel' qs' /\ forall fuel,
        infer_loop_h (Datatypes.S fuel) (length done) x (HRef la) (HRef la) hk = infer_loop_h fuel (Datatypes.S (length done)) x (HRef la) (HRef la) h1).
      { destruct (andb b (is_splitter_consec_chunks k)) eqn:B.
        - apply andb_prop in B as (B & K). assert (Ch : chunks p) by (split; [exact B|]; destruct k; try discriminate; exact Sk).
          destruct (add_step hk done sel qs p S Ip) as (h1 & q & Run & S1); [intros r J; rewrite E; apply in_or_app; auto|exact Ch|].
          exists h1, (sel ++ [p]), (qs ++ [q]). split; [exact S1|]. intros fuel. cbn [infer_loop_h]. unfold hbind at 1. rewrite (items_la _ _ _ _ S).
          rewrite Nth. unfold hbind at 1. rewrite (self_attr _ _ _ _ S _ _ _ _ Ex Ea Ec).
          rewrite B. change (truthy (HInt 1%Z)) with true. cbv iota. unfold hbind at 1. rewrite (consec_step _ _ _ Sk'), K.
          unfold hbind at 1. rewrite Run. reflexivity.
        - exists hk, sel, qs. split.
          + destruct S as [s1 s2 s3 s4 s5 s6 s7 s8 s9]. constructor; auto. apply kept_snoc_no; [exact s6|]. intros (B' & Sc).
            rewrite (splits_by_fun _ _ _ _ Sk Sc), B' in B. discriminate.
          + intros fuel. cbn [infer_loop_h]. unfold hbind at 1. rewrite (items_la _ _ _ _ S).
            rewrite Nth. unfold hbind at 1. rewrite (self_attr _ _ _ _ S _ _ _ _ Ex Ea Ec).
            destruct (bool_cases b) as [Hb|Hb]; rewrite Hb in B |- *.
            * change (truthy (HInt 1%Z)) with true. cbv iota. unfold hbind at 1. cbn [andb] in B. rewrite (consec_step _ _ _ Sk'), B. reflexivity.
            * reflexivity. }
      destruct D as (h1 & sel1 & qs1 & S1 & R1).
      destruct (IH (done ++ [p]) h1 sel1 qs1) as (h2 & sel2 & qs2 & S2 & R2); [rewrite E, <- app_assoc; reflexivity|exact S1|].
      exists h2, sel2, qs2. split; [exact S2|]. intros fuel. cbn [length plus]. rewrite R1, <- R2, app_length. cbn [length]. rewrite (Nat.add_1_r (length done)). reflexivity.
  Qed.
  Lemma second_phase hk sel rest : forall done, state hk ps sel (done ++ rest) ->
    forall fuel, infer_loop_h (S (length rest + fuel)) (length ps + length done) x (HRef la) (HRef la) hk = (hk, Ok true).
  Proof.
    induction rest as [|q rest IH]; intros done S fuel.
    - cbn [infer_loop_h]. unfold hbind at 1. rewrite (items_la _ _ _ _ S). rewrite app_nil_r.
      rewrite (proj2 (nth_error_None _ _)) by (rewrite app_length; lia). reflexivity.
    - pose proof OK as OK'. destruct OK' as (_ & _ & (a & attrs & Ex & Ea & _ & Ec) & _ & _).
      assert (Sq : splits_by hk ROUND_ROBIN_UNWRAP_FLAG q).
      { pose proof (st_like _ _ _ _ S) as F. apply Forall2_app_inv_r in F as (l1 & l2 & _ & F & _). inversion F as [|p q' l3 l4 Lk]; subst.
        destruct Lk as (? & ? & ? & ? & _ & _ & _ & _ & _ & _ & HS). exact HS. }
      specialize (IH (done ++ [q])). rewrite <- app_assoc in IH. specialize (IH S fuel).
      rewrite <- IH, app_length. cbn [infer_loop_h length plus]. unfold hbind at 1. rewrite (items_la _ _ _ _ S).
      rewrite nth_error_app2 by lia. replace (length ps + length done - length ps) with (length done) by lia. rewrite nth_app.
      unfold hbind at 1. rewrite (self_attr _ _ _ _ S _ _ _ _ Ex Ea Ec).
      replace (length ps + (length done + 1)) with (Datatypes.S (length ps + length done)) by lia.
      destruct (bool_cases b) as [Hb|Hb]; rewrite Hb.
      + change (truthy (HInt 1%Z)) with true. cbv iota. unfold hbind at 1. rewrite (consec_step _ _ _ Sq). reflexivity.
      + reflexivity.
  Qed.
  Lemma start : state h [] [] [].
  Proof.
    destruct OK as (C & P & _ & E & _). constructor; auto; try (constructor; fail).
    - now rewrite app_nil_r.
    - intros q [].
  Qed.
  Lemma infers_spec : exists h' sel qs, infers h x h' (HRef la) /\ state h' ps sel qs.
  Proof.
    destruct (first_phase ps [] h [] [] eq_refl start) as (h1 & sel & qs & ST & R).
    exists h1, sel, qs. split; [|exact ST]. exists (length ps + S (length qs)). intros fuel L.
    replace fuel with (length ps + S (length qs + (fuel - length ps - S (length qs)))) by lia.
    pose proof OK as OK'. destruct OK' as (_ & _ & (a & attrs & Ex & Ea & El & _) & _ & _).
    unfold get_inferred_parallelizer_list_h. unfold hbind at 1. rewrite (self_attr _ _ _ _ start _ _ _ _ Ex Ea El).
    unfold hbind at 1. rewrite (self_attr _ _ _ _ start _ _ _ _ Ex Ea El). unfold hbind at 1.
    change 0 with (length (@nil hval)) at 1. rewrite R. pose proof (second_phase h1 sel qs [] ST) as T. rewrite Nat.add_0_r in T. rewrite T. reflexivity.
  Qed.
End Loop.

(** ** A second call *)
Lemma kept_unique (P Q : hval -> Prop) l a : kept P l a -> forall l' c, (forall x, In x l -> (P x <-> Q x)) -> (forall x, In x l' -> ~ Q x) ->
  kept Q (l ++ l') c -> a = c.
Proof.
  induction 1 as [|x l a Px K IH|x l a Px K IH]; intros l' c E N Kc.
  - cbn in Kc. revert Kc N. clear. intros K. induction K as [|x l c Q0 K IH|x l c Q0 K IH]; intros N; [reflexivity| |].
    + exfalso. apply (N x); [now left|exact Q0].
    + apply IH. intros y I. apply N. now right.
  - cbn in Kc. inversion Kc as [|y l1 l2 Qx K'|y l1 l2 Qx K']; subst.
    + f_equal. eapply IH; [|exact N|exact K']. intros y I. apply E. now right.
    + exfalso. apply Qx, E; [now left|exact Px].
  - cbn in Kc. inversion Kc as [|y l1 l2 Qx K'|y l1 l2 Qx K']; subst.
    + exfalso. apply Px, E; [now left|exact Qx].
    + eapply IH; [|exact N|exact K']. intros y I. apply E. now right.
Qed.
Lemma assoc_s_none l k : assoc_s l k = None <-> ~ In k (map fst l).
Proof.
  induction l as [|(k' & v) l IH]; cbn; [tauto|]. destruct (String.eqb_spec k' k) as [->|N]; [split; [discriminate|tauto]|]. rewrite IH. tauto.
Qed.
Lemma like_same h k p q q' : like h k p q -> like h k p q' -> same h q q'.
Proof.
  intros (a & b & l & l' & -> & E & -> & F & K & S & (b1 & m1 & s1 & X1 & Y1 & Z1 & (c1 & -> & W1)))
    (a' & b' & l0 & l0' & X & E' & -> & F' & K' & S' & (b2 & m2 & s2 & X2 & Y2 & Z2 & (c2 & -> & W2))).
  injection X as <-. rewrite E in E'. injection E' as <-. injection X1 as <-. injection X2 as <-.
  rewrite F in Y1. injection Y1 as <-. rewrite F' in Y2. injection Y2 as <-.
  apply (same_instance h b b' "Parallelizer" l' l0' F F').
  - cbn. intros H; decompose [or] H; try discriminate; contradiction.
  - intros n. rewrite !assoc_s_none, <- K, <- K'. reflexivity.
  - intros n v w Xv Xw. destruct (String.eqb_spec n "splitter") as [->|N].
    + rewrite Z1 in Xv. rewrite Z2 in Xw. injection Xv as <-. injection Xw as <-.
      apply (same_instance h c1 c2 "Splitter" _ _ W1 W2).
      * cbn. intros H; decompose [or] H; try discriminate; contradiction.
      * reflexivity.
      * intros n v w Xv Xw. rewrite Xv in Xw. injection Xw as <-. constructor.
    + destruct (assoc_s l n) as [u|] eqn:Eu.
      * eapply same_trans; [apply same_sym, (S n u v N Eu Xv)|exact (S' n u w N Eu Xw)].
      * apply assoc_s_none in Eu. exfalso. apply Eu. rewrite K. eapply assoc_s_name; eauto.
Qed.
