(** * Lemmas about the calls of generators on the information as an object *)
From Coq Require Import Lia.
Require Import Verif.PyBase Verif.JsonData Verif.Parser Verif.Access Verif.IOInfo Verif.IOGen Verif.IOVars Verif.IOHelpers Verif.SpecIOHelpers
  Verif.Heap Verif.HeapApply Verif.HeapIOHelpers Verif.SpecHeap Verif.SpecApply Verif.SpecShare
  Verif.HeapFacts Verif.HeapSep Verif.HeapCopy Verif.P_Heap Verif.ApplyFacts Verif.P_Apply Verif.P_IOHelpers.

(** ** Together, call by call *)
Definition touches (k : io_helper) (n p : nat) : Prop := exists t, assigns k n p t.
Lemma touches_dec k n p : touches k n p \/ ~ touches k n p.
Proof.
  destruct (idle_dec k) as [D|D]; [right; intros (t & A); exact (idle_none k n D p t A)|].
  destruct (named k) as [(w & t')|] eqn:N; [|right; intros (t & A); exact (unnamed_none k n N p t A)].
  assert (P : at_place w n p \/ ~ at_place w n p) by (unfold at_place; destruct w; lia).
  destruct P as [P|P]; [left; exists t'; split; [exists w; auto|auto]|right]. intros (t'' & (w' & N' & P') & _). rewrite N in N'. injection N' as <- <-. contradiction.
Qed.
Lemma untouched k n p : ~ touches k n p <-> forall t, ~ assigns k n p t.
Proof. unfold touches. split; [intros H t A; eauto|intros H (t & A); exact (H t A)]. Qed.
Lemma assigns_same k n p q t t' : assigns k n p t -> assigns k n q t' -> t = t'.
Proof. intros ((w & N & _) & _) ((w' & N' & _) & _). congruence. Qed.
Lemma assigns_bound k n p t : assigns k n p t -> p < n.
Proof. intros ((w & _ & (L & _)) & _). exact L. Qed.
Lemma nil_or_snoc {A} (l : list A) : l = [] \/ exists l' x, l = l' ++ [x].
Proof. induction l as [|x l IH] using rev_ind; [now left|right; eauto]. Qed.
Lemma snoc_split {A} (ks : list A) k l k0 l' : ks ++ [k] = l ++ k0 :: l' -> (l' = [] /\ l = ks /\ k0 = k) \/ exists l'', l' = l'' ++ [k] /\ ks = l ++ k0 :: l''.
Proof.
  destruct (nil_or_snoc l') as [->|(l'' & k' & ->)].
  - intros E. apply app_inj_tail in E as (-> & ->). auto.
  - intros E. change (l ++ k0 :: l'' ++ [k']) with (l ++ (k0 :: l'') ++ [k']) in E. rewrite app_assoc in E. apply app_inj_tail in E as (-> & ->). right. eauto.
Qed.
Lemma together_both ks k n p q : touches k n p -> touches k n q -> together (ks ++ [k]) n p q.
Proof. intros P Q. left. exists ks, k, []. split; [reflexivity|]. split; [exact P|]. split; [exact Q|]. intros k' t []. Qed.
Lemma together_one ks k n p q : touches k n p -> ~ touches k n q -> ~ together (ks ++ [k]) n p q.
Proof.
  intros P Q [(l & k0 & l' & E & P0 & Q0 & R)|R].
  - apply snoc_split in E as [(-> & -> & ->)|(l'' & -> & ->)]; [contradiction|].
    destruct P as (t & P). destruct (R k t) as (N & _); [apply in_or_app; right; now left|]. contradiction.
  - destruct P as (t & P). destruct (R k t) as (N & _); [apply in_or_app; right; now left|]. contradiction.
Qed.
Lemma together_none ks k n p q : ~ touches k n p -> ~ touches k n q -> (together (ks ++ [k]) n p q <-> together ks n p q).
Proof.
  intros P Q. rewrite untouched in P, Q. split.
  - intros [(l & k0 & l' & E & P0 & Q0 & R)|R].
    + apply snoc_split in E as [(-> & -> & ->)|(l'' & -> & ->)]; [destruct P0 as (t & A); now apply P in A|].
      left. exists l, k0, l''. split; [reflexivity|]. split; [exact P0|]. split; [exact Q0|]. intros k' t J. apply R. apply in_or_app. now left.
    + right. intros k' t J. apply R. apply in_or_app. now left.
  - intros [(l & k0 & l' & -> & P0 & Q0 & R)|R].
    + left. exists l, k0, (l' ++ [k]). split; [now rewrite <- app_assoc|]. split; [exact P0|]. split; [exact Q0|].
      intros k' t J. apply in_app_or in J as [J|[<-|[]]]; [now apply R|split; auto].
    + right. intros k' t J. apply in_app_or in J as [J|[<-|[]]]; [now apply R|split; auto].
Qed.
Lemma together_sym ks n p q : together ks n p q -> together ks n q p.
Proof.
  intros [(l & k0 & l' & E & P0 & Q0 & R)|R]; [left; exists l, k0, l'|right].
  - split; [exact E|]. split; [exact Q0|]. split; [exact P0|]. intros k' t J. destruct (R k' t J). auto.
  - intros k' t J. destruct (R k' t J). auto.
Qed.

(** ** The state between two calls *)
(** No standard descriptor, or one made since [h0] *)
Definition std_fresh (h0 h : heap) (v : hval) : Prop :=
  v = HNone \/ exists c a d k, v = HRef c /\ length h0 <= c /\ length h0 <= a /\
    nth_error h c = Some (OInst "StdDescriptorWithIOInfo" [("name", HStd d); ("access", HRef a)]) /\
    nth_error h a = Some (OInst "AccessKind" [("kind", HAccess k)]).
Lemma std_fresh_stable h0 h h' v : stable h h' -> std_fresh h0 h v -> std_fresh h0 h' v.
Proof.
  intros S [->|(c & a & d & k & -> & C & A & Q & R)]; [now left|right]. exists c, a, d, k. split; [reflexivity|]. split; [exact C|]. split; [exact A|].
  split; apply S; auto; unfold leaf_class; cbn; tauto.
Qed.
Record st (h0 h : heap) (ft : hval) (fts : list hval) (fs : list typer) (n : nat) (x : loc) (ks : list io_helper)
  (i : io_info) (la : loc) (ts : list hval) (iv ov : hval) : Prop := mkSt {
  st_unchanged : unchanged h0 h;
  st_closed : closed h;
  st_x : nth_error h x = Some (OInst "InputOutputInfo" [("flagoption_list_typer", ft); ("operand_list_typer", HRef la);
     ("implicit_use_of_streaming_input", iv); ("implicit_use_of_streaming_output", ov)]);
  st_x_new : length h0 <= x;
  st_la : nth_error h la = Some (OList ts);
  st_la_new : length h0 <= la;
  st_n : length ts = n;
  st_ts : Forall2 (typer_is h) ts (operand_list_typer i);
  st_iv : resource_is h iv (implicit_input i);
  st_ov : resource_is h ov (implicit_output i);
  st_ft : list_is typer_is h0 ft fts fs;
  st_fs : flagoption_list_typer i = fs;
  st_share : forall p q t u, nth_error ts p = Some t -> nth_error ts q = Some u -> (t = u <-> together ks n p q);
  st_distinct : forall p q a b r, nth_error ts p = Some (HRef a) -> nth_error ts q = Some (HRef b) ->
    nth_error h a = Some (typer_obj "filestd" r) -> nth_error h b = Some (typer_obj "filestd" r) -> a = b;
  st_fresh : forall p a, nth_error ts p = Some (HRef a) -> length h0 <= a /\ forall w c, nth_error h a = Some (typer_obj w (HRef c)) ->
    length h0 <= c /\ exists k, nth_error h c = Some (OInst "AccessKind" [("kind", HAccess k)]);
  st_fi : std_fresh h0 h iv;
  st_fo : std_fresh h0 h ov }.

Lemma Forall2_nth {A B} (R : A -> B -> Prop) l m : length l = length m -> (forall j x, nth_error l j = Some x -> exists y, nth_error m j = Some y /\ R x y) -> Forall2 R l m.
Proof.
  revert m. induction l as [|x l IH]; intros [|y m] L H; cbn in L; try discriminate; constructor.
  - destruct (H 0 x eq_refl) as (y' & [= <-] & Q). exact Q.
  - apply IH; [lia|]. intros j z E. exact (H (S j) z E).
Qed.
Lemma nth_Forall2 {A B} (R : A -> B -> Prop) l m : Forall2 R l m -> forall j x, nth_error l j = Some x -> exists y, nth_error m j = Some y /\ R x y.
Proof. induction 1 as [|x y l m X F IH]; intros [|j] z E; cbn in E; try discriminate; [injection E as <-; exists y; auto|exact (IH j z E)]. Qed.

Lemma step h0 h ft fts fs n x ks i la ts iv ov : st h0 h ft fts fs n x ks i la ts iv ov ->
  forall inv k i' h' la' ts' iv' ov' tn, call_io inv k i = Ok i' ->
  (forall l, l < length h -> l <> x -> l <> la -> nth_error h' l = nth_error h l) -> closed h' ->
  nth_error h' x = Some (OInst "InputOutputInfo" [("flagoption_list_typer", ft); ("operand_list_typer", HRef la');
     ("implicit_use_of_streaming_input", iv'); ("implicit_use_of_streaming_output", ov')]) ->
  nth_error h' la' = Some (OList ts') -> (la' = la \/ length h <= la') -> length ts' = n ->
  resource_is h' iv' (implicit_input i') -> resource_is h' ov' (implicit_output i') -> std_fresh h0 h' iv' -> std_fresh h0 h' ov' ->
  (forall j, touches k n j -> nth_error ts' j = Some tn) -> (forall j, ~ touches k n j -> nth_error ts' j = nth_error ts j) ->
  (forall j t, assigns k n j t -> typer_is h' tn t) ->
  (forall j, touches k n j -> exists b w r, tn = HRef b /\ length h <= b /\ nth_error h' b = Some (typer_obj w r) /\
    forall a, r = HRef a -> length h <= a /\ exists m, nth_error h' a = Some (OInst "AccessKind" [("kind", HAccess m)])) ->
  st h0 h' ft fts fs n x (ks ++ [k]) i' la' ts' iv' ov'.
Proof.
  intros S inv k i' h' la' ts' iv' ov' tn E F C X L La N Ri Ro Fi Fo Ht Hu Hty Hnew. destruct S as [U C0 X0 Xn L0 Ln N0 T0 I0 O0 FT FS Sh Di Fre FI FO].
  pose proof (unchanged_length _ _ U) as Len.
  assert (Nx : forall l w r, nth_error h l = Some (typer_obj w r) -> l <> x /\ l <> la) by (intros l w r Q; split; intros ->; [rewrite X0 in Q|rewrite L0 in Q]; discriminate).
  assert (Keep : forall l w r, nth_error h l = Some (typer_obj w r) -> nth_error h' l = Some (typer_obj w r)).
  { intros l w r Q. destruct (Nx l w r Q) as (A & B). rewrite F; auto. eapply nth_bound; eauto. }
  assert (St : forall r a, view_access h r = Some a -> view_access h' r = Some a).
  { intros r a. unfold view_access. destruct (attr h r "AccessKind" "kind") as [v|] eqn:Q; [|discriminate]. destruct r; try discriminate.
    apply attr_class in Q as (attrs & Q1 & Q2). unfold attr. rewrite F; [|eapply nth_bound; eauto|intros ->; congruence|intros ->; congruence].
    rewrite Q1. change (String.eqb "AccessKind" "AccessKind") with true. cbv iota. now rewrite Q2. }
  assert (Ty : forall v t, typer_is h v t -> typer_is h' v t).
  { intros v t (l & w & r & -> & Q & T). exists l, w, r. split; [reflexivity|]. split; [now apply Keep|]. destruct t; auto. destruct T; auto. }
  destruct (call_one inv k i) as [(_ & _ & R)|(_ & i1 & R & (F1 & L1 & A1 & U1) & _)]; [congruence|]. rewrite E in R. injection R as <-.
  assert (Ni : n_of i = n) by (unfold n_of; rewrite <- N0; symmetry; eapply Forall2_length; eauto). rewrite Ni in *.
  assert (Old : forall j a, nth_error ts j = Some (HRef a) -> exists w r, nth_error h a = Some (typer_obj w r) /\ forall c, r = HRef c -> c < length h).
  { intros j a Q. destruct (nth_Forall2 _ _ _ T0 j _ Q) as (t & _ & (l & w & r & Q1 & Q2 & _)). injection Q1 as <-. exists w, r. split; [exact Q2|].
    intros c ->. exact (slot_valid h a _ (HRef c) C0 Q2 ltac:(cbn; auto)). }
  constructor; auto.
  - intros l Ll. rewrite F by lia. now apply U.
  - destruct La as [->|La]; lia.
  - apply Forall2_nth; [unfold n_of in L1; lia|]. intros j v Q. destruct (touches_dec k n j) as [T|T].
    + pose proof (Ht j T) as Q'. rewrite Q in Q'. injection Q' as ->. destruct T as (t & A). exists t. split; [now apply A1|eauto].
    + rewrite (Hu j T) in Q. rewrite U1 by (now apply untouched). destruct (nth_Forall2 _ _ _ T0 j v Q) as (t & Q' & W). eauto.
  - congruence.
  - intros p q t u P Q. destruct (touches_dec k n p) as [Tp|Tp], (touches_dec k n q) as [Tq|Tq].
    + rewrite (Ht p Tp) in P. rewrite (Ht q Tq) in Q. injection P as <-. injection Q as <-. split; [intros _; now apply together_both|reflexivity].
    + rewrite (Ht p Tp) in P. injection P as <-. rewrite (Hu q Tq) in Q. split; [|intros W; exfalso; exact (together_one _ _ _ _ _ Tp Tq W)].
      intros ->. exfalso. destruct (Hnew p Tp) as (b & w & r & -> & B & _ & _). destruct (Old q b Q) as (w' & r' & Q' & _). pose proof (nth_bound _ _ _ Q'). lia.
    + rewrite (Ht q Tq) in Q. injection Q as <-. rewrite (Hu p Tp) in P. split; [|intros W; exfalso; exact (together_one _ _ _ _ _ Tq Tp (together_sym _ _ _ _ W))].
      intros ->. exfalso. destruct (Hnew q Tq) as (b & w & r & -> & B & _ & _). destruct (Old p b P) as (w' & r' & Q' & _). pose proof (nth_bound _ _ _ Q'). lia.
    + rewrite (Hu p Tp) in P. rewrite (Hu q Tq) in Q. rewrite together_none by auto. eauto.
  - (* an access belongs to one typer *)
    assert (Cross : forall p q a b r, touches k n p -> ~ touches k n q -> nth_error ts' p = Some (HRef a) -> nth_error ts' q = Some (HRef b) ->
      nth_error h' a = Some (typer_obj "filestd" r) -> nth_error h' b = Some (typer_obj "filestd" r) -> False).
    { intros p q a b r Tp Tq P Q A B. rewrite (Ht p Tp) in P. rewrite (Hu q Tq) in Q. destruct (Hnew p Tp) as (b' & w & r' & -> & B' & Q' & Fr).
      injection P as <-. rewrite A in Q'. injection Q' as <- <-. destruct (Old q b Q) as (w & r' & Q' & Bd). pose proof (Keep _ _ _ Q') as Q2. rewrite B in Q2.
      injection Q2 as <- <-. destruct (Hty p (match named k with Some (_, t) => t | None => ARGSTRING end)) as (l & w & r' & Q1 & Q2 & Q3).
      { destruct Tp as (t & Ap). destruct Ap as ((w & Nm & At) & D). rewrite Nm. split; [exists w; auto|exact D]. }
      injection Q1 as <-. rewrite A in Q2. injection Q2 as <- <-.
      destruct (match named k with Some (_, t) => t | None => ARGSTRING end) as [ac| |]; [|destruct Q3; discriminate|destruct Q3; discriminate].
      destruct Q3 as (_ & Va). destruct r as [| | | | | | |c]; try discriminate. destruct (Fr c eq_refl) as (? & _). pose proof (Bd c eq_refl). lia. }
    intros p q a b r P Q A B. destruct (touches_dec k n p) as [Tp|Tp], (touches_dec k n q) as [Tq|Tq].
    + rewrite (Ht p Tp) in P. rewrite (Ht q Tq) in Q. congruence.
    + exfalso. eapply (Cross p q); eauto.
    + exfalso. eapply (Cross q p); eauto.
    + rewrite (Hu p Tp) in P. rewrite (Hu q Tq) in Q. destruct (Old p a P) as (w & r1 & A' & _). destruct (Old q b Q) as (w' & r2 & B' & _).
      pose proof (Keep _ _ _ A') as A2. pose proof (Keep _ _ _ B') as B2. rewrite A in A2. rewrite B in B2. injection A2 as <- <-. injection B2 as <- <-.
      eapply Di; eauto.
  - intros p a P. destruct (touches_dec k n p) as [T|T].
    + rewrite (Ht p T) in P. injection P as ->. destruct (Hnew p T) as (b & w & r & Q & B & Q' & R). injection Q as <-. split; [lia|]. intros w' c Q2.
      rewrite Q' in Q2. injection Q2 as <- ->. destruct (R c eq_refl) as (? & m & ?). split; [lia|]. exists m. assumption.
    + rewrite (Hu p T) in P. destruct (Fre p a P) as (A & B). split; [exact A|]. intros w c Q. destruct (Old p a P) as (w' & r & Q' & _).
      pose proof (Keep _ _ _ Q') as Q2. rewrite Q in Q2. injection Q2 as <- <-. destruct (B w c Q') as (B1 & m & B2). split; [exact B1|]. exists m.
      rewrite F; [exact B2|eapply nth_bound; eauto|intros ->; congruence|intros ->; congruence].
Qed.

(** ** The steps of a call *)
Lemma stable_update h l o o' : nth_error h l = Some o -> (forall c attrs, o = OInst c attrs -> ~ leaf_class c) -> stable h (update h l o').
Proof.
  intros E N j c attrs Q Lc. rewrite update_other; [exact Q|]. intros ->. rewrite E in Q. injection Q as ->. exact (N c attrs eq_refl Lc).
Qed.
Lemma resource_stable h h' x r : stable h h' -> resource_is h x r -> resource_is h' x r.
Proof. intros S. destruct r; cbn; auto. now apply view_val_stable. Qed.
Lemma typer_update h l o o' v t : nth_error h l = Some o -> (forall c attrs, o = OInst c attrs -> c <> "tuple" /\ ~ leaf_class c) ->
  typer_is h v t -> typer_is (update h l o') v t.
Proof.
  intros E N (k & w & r & -> & Q & T). assert (S : stable h (update h l o')) by (eapply stable_update; [exact E|]; intros c attrs Ec; apply (N c attrs Ec)).
  exists k, w, r. split; [reflexivity|]. split.
  - rewrite update_other; [exact Q|]. intros ->. rewrite E in Q. injection Q as ->. now destruct (N _ _ eq_refl).
  - destruct t; auto. destruct T as (A & B). split; [exact A|]. eapply view_access_stable; eauto.
Qed.
Definition info_obj (ft : hval) (la : loc) (iv ov : hval) : obj :=
  OInst "InputOutputInfo" [("flagoption_list_typer", ft); ("operand_list_typer", HRef la);
     ("implicit_use_of_streaming_input", iv); ("implicit_use_of_streaming_output", ov)].
Lemma info_not_leaf ft la iv ov c attrs : info_obj ft la iv ov = OInst c attrs -> c <> "tuple" /\ ~ leaf_class c.
Proof. intros [= <- _]. split; [discriminate|]. unfold leaf_class. cbn. intuition discriminate. Qed.
Lemma list_not_leaf vs c attrs : OList vs = OInst c attrs -> c <> "tuple" /\ ~ leaf_class c.
Proof. discriminate. Qed.
(** What is known of a typer made since [h] *)
Definition new_ok (h h' : heap) (tn : hval) (t : typer) : Prop :=
  typer_is h' tn t /\ exists b w r, tn = HRef b /\ length h <= b /\ nth_error h' b = Some (typer_obj w r) /\
    forall a, r = HRef a -> length h <= a /\ exists m, nth_error h' a = Some (OInst "AccessKind" [("kind", HAccess m)]).
Lemma new_ok_later h h1 h2 tn t : unchanged h1 h2 -> new_ok h h1 tn t -> new_ok h h2 tn t.
Proof.
  intros U (T & b & w & r & -> & B & E & F). split; [eapply typer_later; eauto|]. exists b, w, r. split; [reflexivity|]. split; [exact B|].
  split; [eapply nth_later; eauto|]. intros a Q. destruct (F a Q) as (A & m & Q'). split; [exact A|]. exists m. eapply nth_later; eauto.
Qed.
Lemma new_ok_update h h1 l o o' tn t : nth_error h1 l = Some o -> (forall c attrs, o = OInst c attrs -> c <> "tuple" /\ ~ leaf_class c) ->
  new_ok h h1 tn t -> new_ok h (update h1 l o') tn t.
Proof.
  intros E N (T & b & w & r & -> & B & Q & F). split; [eapply typer_update; eauto|]. exists b, w, r. split; [reflexivity|]. split; [exact B|].
  split; [rewrite update_other; [exact Q|]; intros ->; rewrite E in Q; injection Q as ->; now destruct (N _ _ eq_refl)|].
  intros a Qa. destruct (F a Qa) as (A & m & Q'). split; [exact A|]. exists m. rewrite update_other; [exact Q'|]. intros ->. rewrite E in Q'. injection Q' as ->.
  destruct (N _ _ eq_refl) as (_ & Lf). apply Lf. unfold leaf_class. cbn. tauto.
Qed.
Lemma new_typer_spec t h : closed h -> exists h' tn, new_typer t h = (h', Ok tn) /\ unchanged h h' /\ closed h' /\ valid h' tn /\ new_ok h h' tn t.
Proof.
  intros C. destruct t as [a| |].
  - set (o := OInst "AccessKind" [("kind", HAccess a)]). set (o2 := typer_obj "filestd" (HRef (length h))).
    exists ((h ++ [o]) ++ [o2]), (HRef (length (h ++ [o]))). split; [reflexivity|].
    assert (C1 : closed (h ++ [o])) by (apply closed_snoc; [exact C|repeat constructor]).
    assert (V : Forall (valid (h ++ [o])) (slots o2)) by (repeat constructor; cbn; rewrite app_length; cbn; lia).
    split; [eapply unchanged_trans; apply unchanged_snoc|]. split; [now apply closed_snoc|]. split; [cbn; rewrite !app_length; cbn; lia|]. split.
    + exists (length (h ++ [o])), "filestd", (HRef (length h)). split; [reflexivity|]. split; [apply nth_last|]. split; [reflexivity|].
      unfold view_access, attr. rewrite (nth_later _ _ _ _ (unchanged_snoc (h ++ [o]) o2) (nth_last h o)). reflexivity.
    + exists (length (h ++ [o])), "filestd", (HRef (length h)). split; [reflexivity|]. split; [rewrite app_length; lia|]. split; [apply nth_last|].
      intros b [= <-]. split; [lia|]. exists a. eapply nth_later; [apply unchanged_snoc|apply nth_last].
  - eexists _, _. split; [reflexivity|]. split; [apply unchanged_snoc|]. split; [apply closed_snoc; [exact C|repeat constructor]|].
    split; [cbn; rewrite app_length; cbn; lia|].
    split; [exists (length h), "argstring", HNone|exists (length h), "argstring", HNone]; (split; [reflexivity|]).
    + split; [apply nth_last|auto].
    + split; [lia|]. split; [apply nth_last|discriminate].
  - eexists _, _. split; [reflexivity|]. split; [apply unchanged_snoc|]. split; [apply closed_snoc; [exact C|repeat constructor]|].
    split; [cbn; rewrite app_length; cbn; lia|].
    split; [exists (length h), "str", HNone|exists (length h), "str", HNone]; (split; [reflexivity|]).
    + split; [apply nth_last|auto].
    + split; [lia|]. split; [apply nth_last|discriminate].
Qed.
Lemma set_attr_ok h l c attrs n v : nth_error h l = Some (OInst c attrs) -> set_attr (HRef l) n v h = (update h l (OInst c (set_s attrs n v)), Ok tt).
Proof. intros E. unfold set_attr, hbind, get_obj. now rewrite E. Qed.
Lemma set_all_spec t h x ft la iv ov ts : closed h -> nth_error h x = Some (info_obj ft la iv ov) -> nth_error h la = Some (OList ts) ->
  exists h' tn la', set_all_h t (HRef x) h = (h', Ok tt) /\ closed h' /\ stable h h' /\
    (forall l, l < length h -> l <> x -> nth_error h' l = nth_error h l) /\
    nth_error h' x = Some (info_obj ft la' iv ov) /\ nth_error h' la' = Some (OList (repeat tn (length ts))) /\ length h <= la' /\
    length h <= length h' /\ valid h' tn /\ new_ok h h' tn t.
Proof.
  intros C X L. destruct (new_typer_spec t h C) as (h1 & tn & E & U1 & C1 & V1 & Nw).
  set (o := OList (repeat tn (length ts))). set (h2 := h1 ++ [o]). assert (U12 : unchanged h1 h2) by apply unchanged_snoc.
  assert (U2 : unchanged h h2) by (eapply unchanged_trans; eauto).
  assert (C2 : closed h2) by (apply closed_snoc; [exact C1|]; cbn; apply Forall_forall; intros v J; apply repeat_spec in J as ->; exact V1).
  pose proof (nth_later _ _ _ _ U2 X) as X2. pose proof (nth_bound _ _ _ X) as Bx. pose proof (unchanged_length _ _ U2) as Len2. pose proof (unchanged_length _ _ U1) as Len1.
  set (h3 := update h2 x (info_obj ft (length h1) iv ov)). assert (Len3 : length h3 = length h2) by apply update_length.
  assert (L2 : length h2 = S (length h1)) by (unfold h2; rewrite app_length; cbn; lia).
  exists h3, tn, (length h1). split; [|split; [|split; [|split; [|split; [|split; [|split; [|split; [|split]]]]]]]].
  - unfold set_all_h. rewrite (bind_ok _ _ _ _ _ (get_attr_ok _ _ _ _ "operand_list_typer" _ X eq_refl)).
    rewrite (bind_ok _ _ _ _ _ (items_ok _ _ _ L)), (bind_ok _ _ _ _ _ E). unfold hbind at 1. unfold alloc at 1. fold o. fold h2.
    rewrite (set_attr_ok _ _ _ _ "operand_list_typer" (HRef (length h1)) X2). reflexivity.
  - apply closed_update; [exact C2|]. cbn. constructor; [eapply valid_mono; [exact Len2|]; eapply slot_valid; [exact C|exact X|cbn; auto]|].
    constructor; [cbn; lia|]. constructor; [eapply valid_mono; [exact Len2|]; eapply slot_valid; [exact C|exact X|cbn; auto]|].
    constructor; [eapply valid_mono; [exact Len2|]; eapply slot_valid; [exact C|exact X|cbn; auto]|constructor].
  - eapply stable_trans; [apply unchanged_stable, U2|]. eapply stable_update; [exact X2|]. intros c attrs Q. apply (info_not_leaf _ _ _ _ _ _ Q).
  - intros l Ll N. unfold h3. rewrite update_other by exact N. now apply U2.
  - apply update_same. lia.
  - unfold h3. rewrite update_other by lia. apply nth_last.
  - lia.
  - lia.
  - eapply valid_mono; [|exact V1]. lia.
  - eapply new_ok_update; [exact X2|apply info_not_leaf|]. exact (new_ok_later _ _ _ _ _ U12 Nw).
Qed.
Lemma put_first_spec h x ft la iv ov v0 ts v : nth_error h x = Some (info_obj ft la iv ov) -> nth_error h la = Some (OList (v0 :: ts)) ->
  put_first_h (HRef x) v h = (update h la (OList (v :: ts)), Ok tt).
Proof.
  intros X L. unfold put_first_h. rewrite (bind_ok _ _ _ _ _ (get_attr_ok _ _ _ _ "operand_list_typer" _ X eq_refl)).
  unfold hbind, get_obj. now rewrite L.
Qed.
Lemma put_last_spec h x ft la iv ov v0 ts v : nth_error h x = Some (info_obj ft la iv ov) -> nth_error h la = Some (OList (v0 :: ts)) ->
  put_last_h (HRef x) v h = (update h la (OList (removelast (v0 :: ts) ++ [v])), Ok tt).
Proof.
  intros X L. unfold put_last_h. rewrite (bind_ok _ _ _ _ _ (get_attr_ok _ _ _ _ "operand_list_typer" _ X eq_refl)).
  unfold hbind, get_obj. now rewrite L.
Qed.
Lemma put_first_empty h x ft la iv ov v : nth_error h x = Some (info_obj ft la iv ov) -> nth_error h la = Some (OList []) ->
  put_first_h (HRef x) v h = (h, Raise IndexError) /\ put_last_h (HRef x) v h = (h, Raise IndexError) /\
  get_first_h (HRef x) h = (h, Raise IndexError) /\ get_last_h (HRef x) h = (h, Raise IndexError).
Proof.
  intros X L. unfold put_first_h, put_last_h, get_first_h, get_last_h.
  rewrite !(bind_ok _ _ _ _ _ (get_attr_ok _ _ _ _ "operand_list_typer" _ X eq_refl)), !(bind_ok _ _ _ _ _ (items_ok _ _ _ L)).
  unfold hbind, get_obj. now rewrite L.
Qed.
Lemma get_ok h x ft la iv ov v0 ts : nth_error h x = Some (info_obj ft la iv ov) -> nth_error h la = Some (OList (v0 :: ts)) ->
  get_first_h (HRef x) h = (h, Ok v0) /\ get_last_h (HRef x) h = (h, Ok (last ts v0)).
Proof.
  intros X L. unfold get_first_h, get_last_h.
  now rewrite !(bind_ok _ _ _ _ _ (get_attr_ok _ _ _ _ "operand_list_typer" _ X eq_refl)), !(bind_ok _ _ _ _ _ (items_ok _ _ _ L)).
Qed.
(** Positions *)
Lemma nth_repeat_some {A} (v : A) n j : j < n -> nth_error (repeat v n) j = Some v.
Proof. revert j. induction n; intros [|j] L; cbn; try lia; auto. apply IHn. lia. Qed.
Lemma nth_put_last {A} (v0 : A) vs v j : nth_error (removelast (v0 :: vs) ++ [v]) j = if Nat.eqb (S j) (length (v0 :: vs)) then Some v else nth_error (v0 :: vs) j.
Proof.
  destruct (nil_or_snoc (v0 :: vs)) as [Q|(l & w & Q)]; [discriminate|]. rewrite Q, removelast_last.
  destruct (Nat.eqb_spec (S j) (length (l ++ [w]))) as [E|E]; rewrite app_length in E; cbn [length] in E.
  - replace j with (length l) by lia. rewrite nth_error_app2 by lia. rewrite Nat.sub_diag. reflexivity.
  - destruct (Nat.lt_ge_cases j (length l)) as [J|J]; [now rewrite !nth_error_app1|]. rewrite !nth_error_app2 by lia.
    destruct (j - length l) as [|m] eqn:D; [lia|]. cbn. now destruct m.
Qed.
Lemma last_default {A} (vs : list A) a b : vs <> [] -> last vs a = last vs b.
Proof. induction vs as [|v vs IH]; [congruence|]. intros _. destruct vs; [reflexivity|]. apply IH. discriminate. Qed.
Lemma nth_last_item {A} (v0 : A) vs j : S j = length (v0 :: vs) -> nth_error (v0 :: vs) j = Some (last vs v0).
Proof.
  revert v0 j. induction vs as [|w vs IH]; intros v0 j E; cbn in E; [replace j with 0 by lia; reflexivity|].
  destruct j as [|j]; [lia|]. cbn [nth_error]. rewrite (IH w j) by (cbn; lia). destruct vs as [|u vs]; [reflexivity|].
  change (last (w :: u :: vs) v0) with (last (u :: vs) v0). f_equal. apply last_default. discriminate.
Qed.
Lemma touches_iff k n w t j : named k = Some (w, t) -> ~ idle k -> (touches k n j <-> at_place w n j).
Proof.
  intros N D. split.
  - intros (t' & (w' & N' & A) & _). rewrite N in N'. injection N' as <- <-. exact A.
  - intros A. exists t. split; [exists w; auto|exact D].
Qed.
Lemma assigns_named k n w t j t' : named k = Some (w, t) -> assigns k n j t' -> t' = t.
Proof. intros N ((w' & N' & _) & _). congruence. Qed.
Lemma streams_kept inv k i i' w t : named k = Some (w, t) -> sets_streams inv k i i' -> implicit_input i' = implicit_input i /\ implicit_output i' = implicit_output i.
Proof. intros N. destruct k; try discriminate N; cbn; auto. Qed.

(** ** A call on the object and on the value *)
Definition simulates (h0 : heap) (ft : hval) (fts : list hval) (fs : list typer) (n : nat) (x : loc) (ks : list io_helper)
  (y : hval) (inv : invocation) (k : io_helper) (i : io_info) (h : heap) : Prop :=
  match call_io_h y k (HRef x) h, call_io inv k i with
  | (h', Ok _), Ok i' => exists la ts iv ov, st h0 h' ft fts fs n x (ks ++ [k]) i' la ts iv ov
  | (h', Raise e), Raise e' => e = e' /\ unchanged h0 h'
  | _, _ => False
  end.
Section Call.
  Variables (h0 h : heap) (ft : hval) (fts : list hval) (fs : list typer) (n : nat) (x : loc) (ks : list io_helper) (i : io_info)
    (la : loc) (ts : list hval) (iv ov y : hval) (inv : invocation) (k : io_helper) (w : place) (t : typer).
  Hypothesis S : st h0 h ft fts fs n x ks i la ts iv ov.
  Hypothesis N : named k = Some (w, t).
  Hypothesis D : ~ idle k.
  Let Ni : n_of i = n.
  Proof. unfold n_of. rewrite <- (st_n _ _ _ _ _ _ _ _ _ _ _ _ _ S). symmetry. eapply Forall2_length, (st_ts _ _ _ _ _ _ _ _ _ _ _ _ _ S). Qed.
  Let Nts : ts = [] <-> operand_list_typer i = [].
  Proof. pose proof (st_ts _ _ _ _ _ _ _ _ _ _ _ _ _ S) as T. split; intros E; rewrite E in T; inversion T; reflexivity. Qed.
  Let X : nth_error h x = Some (info_obj ft la iv ov).
  Proof. exact (st_x _ _ _ _ _ _ _ _ _ _ _ _ _ S). Qed.
  Let L : nth_error h la = Some (OList ts).
  Proof. exact (st_la _ _ _ _ _ _ _ _ _ _ _ _ _ S). Qed.
  Let C : closed h.
  Proof. exact (st_closed _ _ _ _ _ _ _ _ _ _ _ _ _ S). Qed.
  (** The steps that a call which names operands makes, from what it leaves *)
  Lemma sim_ok h' la' ts' tn : call_io_h y k (HRef x) h = (h', Ok tt) -> (ts <> [] \/ ~ indexed k) ->
    (forall l, l < length h -> l <> x -> l <> la -> nth_error h' l = nth_error h l) -> closed h' -> stable h h' ->
    nth_error h' x = Some (info_obj ft la' iv ov) -> nth_error h' la' = Some (OList ts') -> (la' = la \/ length h <= la') -> length ts' = n ->
    (forall j, at_place w n j -> nth_error ts' j = Some tn) -> (forall j, j < n -> ~ at_place w n j -> nth_error ts' j = nth_error ts j) ->
    new_ok h h' tn t -> simulates h0 ft fts fs n x ks y inv k i h.
  Proof.
    intros E I F C' St X' L' La N' Ht Hu (Ty & Nw). unfold simulates. rewrite E.
    destruct (call_one inv k i) as [(Z & Ix & _)|(_ & i' & R & _ & Ss)]; [destruct I as [I|I]; [exfalso; now apply I, Nts|contradiction]|].
    rewrite R. destruct (streams_kept inv k i i' w t N Ss) as (Ei & Eo). exists la', ts', iv, ov.
    eapply (step _ _ _ _ _ _ _ _ _ _ _ _ _ S inv k i' h' la' ts' iv ov tn R); auto.
    - rewrite Ei. eapply resource_stable; [exact St|]. exact (st_iv _ _ _ _ _ _ _ _ _ _ _ _ _ S).
    - rewrite Eo. eapply resource_stable; [exact St|]. exact (st_ov _ _ _ _ _ _ _ _ _ _ _ _ _ S).
    - eapply std_fresh_stable; [exact St|]. exact (st_fi _ _ _ _ _ _ _ _ _ _ _ _ _ S).
    - eapply std_fresh_stable; [exact St|]. exact (st_fo _ _ _ _ _ _ _ _ _ _ _ _ _ S).
    - intros j T. apply Ht. now apply (touches_iff k n w t j N D).
    - intros j T. destruct (Nat.lt_ge_cases j n) as [J|J].
      + apply Hu; [exact J|]. intros A. apply T. now apply (touches_iff k n w t j N D).
      + transitivity (@None hval); [apply nth_error_None; lia|symmetry; apply nth_error_None]. rewrite (st_n _ _ _ _ _ _ _ _ _ _ _ _ _ S). exact J.
    - intros j t' A. now rewrite (assigns_named k n w t j t' N A).
  Qed.
  Lemma sim_raise h' : call_io_h y k (HRef x) h = (h', Raise IndexError) -> ts = [] -> indexed k -> unchanged h h' -> simulates h0 ft fts fs n x ks y inv k i h.
  Proof.
    intros E Z I U. unfold simulates. rewrite E. destruct (call_one inv k i) as [(_ & _ & R)|([Q|Q] & _)]; [|exfalso; now apply Q, Nts|contradiction].
    rewrite R. split; [reflexivity|]. eapply unchanged_trans; [exact (st_unchanged _ _ _ _ _ _ _ _ _ _ _ _ _ S)|exact U].
  Qed.
  Let Xn : x <> la.
  Proof. intros ->. rewrite L in X. discriminate. Qed.
  Let Nlen : length ts = n := st_n _ _ _ _ _ _ _ _ _ _ _ _ _ S.
  Let Vts : Forall (valid h) ts.
  Proof. pose proof (C _ (nth_error_In _ _ L)) as V. exact V. Qed.
  Lemma sim_all : w = All -> ~ indexed k -> call_io_h y k (HRef x) = set_all_h t (HRef x) -> simulates h0 ft fts fs n x ks y inv k i h.
  Proof.
    intros Wa I E. destruct (set_all_spec t h x ft la iv ov ts C X L) as (h' & tn & la' & R & C' & St & F & X' & L' & La & _ & _ & Nw).
    apply (sim_ok h' la' (repeat tn (length ts)) tn); auto.
    - now rewrite E.
    - rewrite repeat_length. exact Nlen.
    - intros j (J & _). apply nth_repeat_some. lia.
    - intros j J A. exfalso. apply A. split; [exact J|]. now rewrite Wa.
  Qed.
  Let cases : ts = [] \/ exists v0 vs, ts = v0 :: vs.
  Proof. destruct ts; eauto. Qed.
  Lemma sim_first : w = OnlyFirst -> indexed k -> call_io_h y k (HRef x) = set_first_h t (HRef x) -> simulates h0 ft fts fs n x ks y inv k i h.
  Proof.
    intros Wa I E. destruct (new_typer_spec t h C) as (h1 & tn & R & U & C1 & V & Nw). pose proof (nth_later _ _ _ _ U X) as X1. pose proof (nth_later _ _ _ _ U L) as L1.
    assert (E' : call_io_h y k (HRef x) h = put_first_h (HRef x) tn h1) by (rewrite E; unfold set_first_h; apply (bind_ok _ _ _ _ _ R)).
    pose proof Vts as Vs. pose proof Nlen as Nl0. destruct cases as [Ts|(v0 & vs & Ts)]; rewrite Ts in L1, Vs, Nl0.
    - apply (sim_raise h1); auto. rewrite E'. now apply (put_first_empty h1 x ft la iv ov tn).
    - pose proof (nth_bound _ _ _ L1) as B1.
      apply (sim_ok (update h1 la (OList (tn :: vs))) la (tn :: vs) tn); auto.
      + rewrite E'. now apply (put_first_spec h1 x ft la iv ov v0 vs tn).
      + left. rewrite Ts. discriminate.
      + intros l Ll _ Nl. rewrite update_other by exact Nl. now apply U.
      + apply closed_update; [exact C1|]. cbn. constructor; [exact V|]. inversion Vs. eapply Forall_impl; [|eassumption]. intros a. apply valid_mono. now apply unchanged_length.
      + eapply stable_trans; [apply unchanged_stable, U|]. eapply stable_update; [exact L1|]. intros c attrs Q. discriminate Q.
      + rewrite update_other by exact Xn. exact X1.
      + apply update_same. exact B1.
      + intros j (J & A). rewrite Wa in A. now rewrite A.
      + intros j J A. rewrite Ts. destruct j as [|j]; [|reflexivity]. exfalso. apply A. split; [exact J|]. now rewrite Wa.
      + eapply new_ok_update; [exact L1|apply list_not_leaf|exact Nw].
  Qed.
  Lemma sim_last : w = OnlyLast -> indexed k -> call_io_h y k (HRef x) = set_last_h t (HRef x) -> simulates h0 ft fts fs n x ks y inv k i h.
  Proof.
    intros Wa I E. destruct (new_typer_spec t h C) as (h1 & tn & R & U & C1 & V & Nw). pose proof (nth_later _ _ _ _ U X) as X1. pose proof (nth_later _ _ _ _ U L) as L1.
    assert (E' : call_io_h y k (HRef x) h = put_last_h (HRef x) tn h1) by (rewrite E; unfold set_last_h; apply (bind_ok _ _ _ _ _ R)).
    pose proof Vts as Vs. pose proof Nlen as Nl0. destruct cases as [Ts|(v0 & vs & Ts)]; rewrite Ts in L1, Vs, Nl0.
    - apply (sim_raise h1); auto. rewrite E'. now apply (put_first_empty h1 x ft la iv ov tn).
    - pose proof (nth_bound _ _ _ L1) as B1.
      apply (sim_ok (update h1 la (OList (removelast (v0 :: vs) ++ [tn]))) la (removelast (v0 :: vs) ++ [tn]) tn); auto.
      + rewrite E'. now apply (put_last_spec h1 x ft la iv ov v0 vs tn).
      + left. rewrite Ts. discriminate.
      + intros l Ll _ Nl. rewrite update_other by exact Nl. now apply U.
      + apply closed_update; [exact C1|]. cbn [slots]. assert (Lu : length h <= length h1) by now apply unchanged_length.
        apply Forall_app. split; [|auto]. apply Forall_forall. intros a J. apply valid_mono with h; [exact Lu|]. rewrite Forall_forall in Vs. apply Vs.
        rewrite (app_removelast_last v0 (l := v0 :: vs)) by discriminate. apply in_or_app. now left.
      + eapply stable_trans; [apply unchanged_stable, U|]. eapply stable_update; [exact L1|]. intros c attrs Q. discriminate Q.
      + rewrite update_other by exact Xn. exact X1.
      + apply update_same. exact B1.
      + rewrite <- Nl0. rewrite (app_removelast_last v0 (l := v0 :: vs)) at 2 by discriminate. now rewrite !app_length.
      + intros j (J & A). rewrite Wa in A. rewrite nth_put_last, Nl0. now rewrite (proj2 (Nat.eqb_eq _ _) A).
      + intros j J A. rewrite Ts. rewrite nth_put_last, Nl0. destruct (Nat.eqb_spec (Datatypes.S j) n) as [Q|Q]; [|reflexivity]. exfalso. apply A. split; [exact J|]. now rewrite Wa.
      + eapply new_ok_update; [exact L1|apply list_not_leaf|exact Nw].
  Qed.
  Lemma sim_but_first : w = ButFirst -> indexed k -> call_io_h y k (HRef x) = set_but_first_h t (HRef x) -> simulates h0 ft fts fs n x ks y inv k i h.
  Proof.
    intros Wa I E. pose proof L as L0. pose proof Vts as Vs. pose proof Nlen as Nl0. destruct cases as [Ts|(v0 & vs & Ts)]; rewrite Ts in L0, Vs, Nl0.
    - apply (sim_raise h); auto; [|intros l _; reflexivity]. rewrite E. unfold set_but_first_h. apply bind_raise. now apply (put_first_empty h x ft la iv ov HNone).
    - destruct (set_all_spec t h x ft la iv ov (v0 :: vs) C X L0) as (h1 & tn & la' & R & C1 & St & F & X1 & L1 & La & Lh & V & Nw).
      assert (E' : call_io_h y k (HRef x) h = put_first_h (HRef x) v0 h1).
      { rewrite E. unfold set_but_first_h. rewrite (bind_ok _ _ _ _ _ (proj1 (get_ok h x ft la iv ov v0 vs X L0))). unfold hbind. now rewrite R. }
      pose proof (nth_bound _ _ _ X) as Bx. pose proof (nth_bound _ _ _ L1) as B1. cbn [length repeat] in L1.
      apply (sim_ok (update h1 la' (OList (v0 :: repeat tn (length vs)))) la' (v0 :: repeat tn (length vs)) tn); auto.
      + rewrite E'. now apply (put_first_spec h1 x ft la' iv ov tn (repeat tn (length vs)) v0).
      + left. rewrite Ts. discriminate.
      + intros l Ll Nx Nl. rewrite update_other by lia. now apply F.
      + apply closed_update; [exact C1|]. cbn. constructor; [inversion Vs; eapply valid_mono; eauto|]. apply Forall_forall. intros a J. apply repeat_spec in J as ->. exact V.
      + eapply stable_trans; [exact St|]. eapply stable_update; [exact L1|]. intros c attrs Q. discriminate Q.
      + rewrite update_other by lia. exact X1.
      + apply update_same. exact B1.
      + cbn in *. rewrite repeat_length. exact Nl0.
      + intros j (J & A). rewrite Wa in A. destruct j as [|j]; [congruence|]. cbn in *. apply nth_repeat_some. lia.
      + intros j J A. rewrite Ts. destruct j as [|j]; [reflexivity|]. exfalso. apply A. split; [exact J|]. rewrite Wa. discriminate.
      + eapply new_ok_update; [exact L1|apply list_not_leaf|exact Nw].
  Qed.
  Lemma sim_but_last : w = ButLast -> indexed k -> call_io_h y k (HRef x) = set_but_last_h t (HRef x) -> simulates h0 ft fts fs n x ks y inv k i h.
  Proof.
    intros Wa I E. pose proof L as L0. pose proof Vts as Vs. pose proof Nlen as Nl0. destruct cases as [Ts|(v0 & vs & Ts)]; rewrite Ts in L0, Vs, Nl0.
    - apply (sim_raise h); auto; [|intros l _; reflexivity]. rewrite E. unfold set_but_last_h. apply bind_raise. now apply (put_first_empty h x ft la iv ov HNone).
    - destruct (set_all_spec t h x ft la iv ov (v0 :: vs) C X L0) as (h1 & tn & la' & R & C1 & St & F & X1 & L1 & La & Lh & V & Nw).
      assert (E' : call_io_h y k (HRef x) h = put_last_h (HRef x) (last vs v0) h1).
      { rewrite E. unfold set_but_last_h. rewrite (bind_ok _ _ _ _ _ (proj2 (get_ok h x ft la iv ov v0 vs X L0))). unfold hbind. now rewrite R. }
      pose proof (nth_bound _ _ _ X) as Bx. pose proof (nth_bound _ _ _ L1) as B1. cbn [length repeat] in L1.
      set (rs := removelast (tn :: repeat tn (length vs))).
      assert (Lr : length (rs ++ [last vs v0]) = n).
      { rewrite <- Nl0. transitivity (length (tn :: repeat tn (length vs))); [|cbn; now rewrite repeat_length].
        rewrite (app_removelast_last tn (l := tn :: repeat tn (length vs))) at 1 by discriminate. fold rs. now rewrite !app_length. }
      apply (sim_ok (update h1 la' (OList (rs ++ [last vs v0]))) la' (rs ++ [last vs v0]) tn); auto.
      + rewrite E'. now apply (put_last_spec h1 x ft la' iv ov tn (repeat tn (length vs)) (last vs v0)).
      + left. rewrite Ts. discriminate.
      + intros l Ll Nx Nl. rewrite update_other by lia. now apply F.
      + apply closed_update; [exact C1|]. cbn [slots]. apply Forall_app. split.
        * apply Forall_forall. intros a J. assert (Q : In a (tn :: repeat tn (length vs))).
          { rewrite (app_removelast_last tn (l := tn :: repeat tn (length vs))) by discriminate. apply in_or_app. now left. }
          change (In a (repeat tn (Datatypes.S (length vs)))) in Q. apply repeat_spec in Q as ->. exact V.
        * constructor; [|constructor]. apply valid_mono with h; [exact Lh|]. rewrite Forall_forall in Vs. apply Vs.
          eapply nth_error_In, (nth_last_item v0 vs (length vs)). reflexivity.
      + eapply stable_trans; [exact St|]. eapply stable_update; [exact L1|]. intros c attrs Q. discriminate Q.
      + rewrite update_other by lia. exact X1.
      + apply update_same. exact B1.
      + intros j (J & A). rewrite Wa in A. unfold rs. rewrite nth_put_last. cbn [length] in *. rewrite repeat_length, Nl0.
        destruct (Nat.eqb_spec (Datatypes.S j) n) as [Q|Q]; [congruence|]. change (nth_error (repeat tn (Datatypes.S (length vs))) j = Some tn). apply nth_repeat_some. lia.
      + intros j J A. rewrite Ts. unfold rs. rewrite nth_put_last. cbn [length] in *. rewrite repeat_length, Nl0.
        destruct (Nat.eqb_spec (Datatypes.S j) n) as [Q|Q]; [symmetry; apply nth_last_item; cbn; lia|]. exfalso. apply A. split; [exact J|]. now rewrite Wa.
      + eapply new_ok_update; [exact L1|apply list_not_leaf|exact Nw].
  Qed.
End Call.

(** ** The standard streams *)
Definition implicit_heap (h : heap) (d : std) (a : access) : heap :=
  ((h ++ [OInst "StdDescriptor" [("name", HStd d)]]) ++ [OInst "AccessKind" [("kind", HAccess a)]]) ++
    [OInst "StdDescriptorWithIOInfo" [("name", HStd d); ("access", HRef (S (length h)))]].
Lemma implicit_run attribute d a h x c attrs : nth_error h x = Some (OInst c attrs) ->
  set_implicit_h attribute d a true (HRef x) h = (update (implicit_heap h d a) x (OInst c (set_s attrs attribute (HRef (S (S (length h)))))), Ok tt).
Proof.
  intros X. unfold set_implicit_h. set (o1 := OInst "StdDescriptor" [("name", HStd d)]). set (o2 := OInst "AccessKind" [("kind", HAccess a)]).
  rewrite (bind_ok _ _ h (h ++ [o1]) (HRef (length h)) eq_refl).
  assert (L1 : length (h ++ [o1]) = S (length h)) by (rewrite app_length; cbn; lia).
  rewrite (bind_ok _ _ _ ((h ++ [o1]) ++ [o2]) (HRef (S (length h)))) by (unfold new_access, alloc; now rewrite L1).
  assert (Q : nth_error ((h ++ [o1]) ++ [o2]) (length h) = Some o1) by (eapply nth_later; [apply unchanged_snoc|apply nth_last]).
  assert (L2 : length ((h ++ [o1]) ++ [o2]) = S (S (length h))) by (rewrite app_length; cbn; lia).
  rewrite (bind_ok _ _ _ (implicit_heap h d a) (HRef (S (S (length h))))).
  2:{ unfold get_from_original_stddescriptor_with_ioinfo_h. rewrite (bind_ok _ _ _ _ _ (get_attr_ok _ _ _ [("name", HStd d)] "name" _ Q eq_refl)). unfold alloc. now rewrite L2. }
  apply set_attr_ok. unfold implicit_heap. eapply nth_later; [apply unchanged_snoc|]. eapply nth_later; [apply unchanged_snoc|]. eapply nth_later; [apply unchanged_snoc|exact X].
Qed.
Lemma implicit_facts h d a : closed h -> let h1 := implicit_heap h d a in
  unchanged h h1 /\ closed h1 /\ length h1 = 3 + length h /\ view_val h1 (HRef (S (S (length h)))) = Some (PRes (mkRes (StdDescriptor d) a)) /\
  std_fresh h h1 (HRef (S (S (length h)))).
Proof.
  intros C. unfold implicit_heap. set (o1 := OInst "StdDescriptor" [("name", HStd d)]). set (o2 := OInst "AccessKind" [("kind", HAccess a)]).
  set (o3 := OInst "StdDescriptorWithIOInfo" _). set (ha := h ++ [o1]). set (hb := ha ++ [o2]). cbv zeta.
  assert (La : length ha = S (length h)) by (unfold ha; rewrite app_length; cbn; lia). assert (Lb : length hb = S (S (length h))) by (unfold hb; rewrite app_length; cbn; lia).
  assert (Ca : closed ha) by (apply closed_snoc; [exact C|repeat constructor]). assert (Cb : closed hb) by (apply closed_snoc; [exact Ca|repeat constructor]).
  split; [eapply unchanged_trans; [apply unchanged_snoc|]; eapply unchanged_trans; apply unchanged_snoc|].
  split; [apply closed_snoc; [exact Cb|]; repeat constructor; cbn; lia|]. split; [rewrite app_length; cbn; lia|].
  assert (Q3 : nth_error (hb ++ [o3]) (S (S (length h))) = Some o3) by (rewrite <- Lb; apply nth_last).
  assert (Q2 : nth_error (hb ++ [o3]) (S (length h)) = Some o2) by (rewrite <- La; eapply nth_later; [apply unchanged_snoc|apply nth_last]).
  split; [|right; exists (S (S (length h))), (S (length h)), d, a; repeat split; auto].
  revert Q2 Q3. generalize (hb ++ [o3]) as H. unfold o3, o2. clear. generalize (S (S (length h))) as m3. generalize (S (length h)) as m2. intros m2 m3 H Q2 Q3.
  unfold view_val, view_access, attr. rewrite Q3. cbn. rewrite Q2. reflexivity.
Qed.
Lemma implicit_step h0 h ft fts fs n x ks i la ts iv ov inv k i' d a : st h0 h ft fts fs n x ks i la ts iv ov ->
  (forall j t, ~ assigns k n j t) -> call_io inv k i = Ok i' ->
  let h' iv' ov' := update (implicit_heap h d a) x (info_obj ft la iv' ov') in
  (implicit_input i' = Some (mkRes (StdDescriptor d) a) -> implicit_output i' = implicit_output i ->
     st h0 (h' (HRef (S (S (length h)))) ov) ft fts fs n x (ks ++ [k]) i' la ts (HRef (S (S (length h)))) ov) /\
  (implicit_input i' = implicit_input i -> implicit_output i' = Some (mkRes (StdDescriptor d) a) ->
     st h0 (h' iv (HRef (S (S (length h))))) ft fts fs n x (ks ++ [k]) i' la ts iv (HRef (S (S (length h))))).
Proof.
  intros S NA R h'. pose proof (st_x _ _ _ _ _ _ _ _ _ _ _ _ _ S) as X. pose proof (st_la _ _ _ _ _ _ _ _ _ _ _ _ _ S) as L. pose proof (st_closed _ _ _ _ _ _ _ _ _ _ _ _ _ S) as C.
  destruct (implicit_facts h d a C) as (U & C1 & L1 & V & Fn). pose proof (nth_later _ _ _ _ U X) as X1. pose proof (nth_later _ _ _ _ U L) as La1. pose proof (nth_bound _ _ _ X) as Bx.
  assert (Xn : la <> x) by (intros ->; rewrite L in X; discriminate).
  assert (Stb : forall iv' ov', stable (implicit_heap h d a) (h' iv' ov')).
  { intros iv' ov'. eapply stable_update; [exact X1|]. intros c attrs Q. apply (info_not_leaf _ _ _ _ _ _ Q). }
  assert (G : forall iv' ov', valid (implicit_heap h d a) iv' -> valid (implicit_heap h d a) ov' ->
    resource_is (h' iv' ov') iv' (implicit_input i') -> resource_is (h' iv' ov') ov' (implicit_output i') ->
    std_fresh h0 (implicit_heap h d a) iv' -> std_fresh h0 (implicit_heap h d a) ov' -> st h0 (h' iv' ov') ft fts fs n x (ks ++ [k]) i' la ts iv' ov').
  { intros iv' ov' Vi Vo Ri Ro Fi Fo. eapply (step _ _ _ _ _ _ _ _ _ _ _ _ _ S inv k i' (h' iv' ov') la ts iv' ov' HNone R); auto.
    - intros l Ll Nx _. unfold h'. rewrite update_other by exact Nx. now apply U.
    - apply closed_update; [exact C1|]. cbn. constructor; [eapply valid_mono; [apply unchanged_length, U|]; eapply slot_valid; [exact C|exact X|cbn; auto]|].
      constructor; [cbn; pose proof (nth_bound _ _ _ La1); lia|]. auto.
    - apply update_same. lia.
    - unfold h'. rewrite update_other by exact Xn. exact La1.
    - exact (st_n _ _ _ _ _ _ _ _ _ _ _ _ _ S).
    - exact (std_fresh_stable _ _ _ _ (Stb iv' ov') Fi).
    - exact (std_fresh_stable _ _ _ _ (Stb iv' ov') Fo).
    - intros j (t & A). exfalso. exact (NA j t A).
    - intros j t A. exfalso. exact (NA j t A).
    - intros j (t & A). exfalso. exact (NA j t A). }
  assert (Vi : valid (implicit_heap h d a) iv) by (eapply valid_mono; [apply unchanged_length, U|]; eapply slot_valid; [exact C|exact X|cbn; auto]).
  assert (Vo : valid (implicit_heap h d a) ov) by (eapply valid_mono; [apply unchanged_length, U|]; eapply slot_valid; [exact C|exact X|cbn; auto]).
  assert (Vn : valid (implicit_heap h d a) (HRef (Datatypes.S (Datatypes.S (length h))))) by (cbn [valid]; rewrite L1; lia).
  assert (Fnew : std_fresh h0 (implicit_heap h d a) (HRef (Datatypes.S (Datatypes.S (length h))))).
  { pose proof (unchanged_length _ _ (st_unchanged _ _ _ _ _ _ _ _ _ _ _ _ _ S)) as Len. destruct Fn as [Fn|(c & b & d' & k' & Q1 & Q2 & Q3 & Q4)]; [discriminate|].
    right. exists c, b, d', k'. split; [exact Q1|]. split; [lia|]. split; [lia|exact Q4]. }
  assert (Fiv : std_fresh h0 (implicit_heap h d a) iv) by (eapply std_fresh_stable; [apply unchanged_stable, U|]; exact (st_fi _ _ _ _ _ _ _ _ _ _ _ _ _ S)).
  assert (Fov : std_fresh h0 (implicit_heap h d a) ov) by (eapply std_fresh_stable; [apply unchanged_stable, U|]; exact (st_fo _ _ _ _ _ _ _ _ _ _ _ _ _ S)).
  split; intros Ei Eo; apply G; auto; rewrite ?Ei, ?Eo.
  - eapply (resource_stable (implicit_heap h d a)); [apply Stb|exact V].
  - eapply (resource_stable (implicit_heap h d a)); [apply Stb|]. eapply resource_stable; [apply unchanged_stable, U|]. exact (st_ov _ _ _ _ _ _ _ _ _ _ _ _ _ S).
  - eapply (resource_stable (implicit_heap h d a)); [apply Stb|]. eapply resource_stable; [apply unchanged_stable, U|]. exact (st_iv _ _ _ _ _ _ _ _ _ _ _ _ _ S).
  - eapply (resource_stable (implicit_heap h d a)); [apply Stb|exact V].
Qed.
(** A call that leaves everything as it is *)
Lemma idle_step h0 h ft fts fs n x ks i la ts iv ov inv k i' : st h0 h ft fts fs n x ks i la ts iv ov ->
  (forall j t, ~ assigns k n j t) -> call_io inv k i = Ok i' -> implicit_input i' = implicit_input i -> implicit_output i' = implicit_output i ->
  st h0 h ft fts fs n x (ks ++ [k]) i' la ts iv ov.
Proof.
  intros S NA R Ei Eo. pose proof S as S'. destruct S' as [U C X Xn L Ln N T I O FT FS Sh Di Fre FI FO].
  eapply (step _ _ _ _ _ _ _ _ _ _ _ _ _ S inv k i' h la ts iv ov HNone R); auto; rewrite ?Ei, ?Eo; auto.
  - intros j (t & A). exfalso. exact (NA j t A).
  - intros j t A. exfalso. exact (NA j t A).
  - intros j (t & A). exfalso. exact (NA j t A).
Qed.
Lemma call_sim h0 h ft fts fs n x ks i la ts iv ov y fos ops inv k : st h0 h ft fts fs n x ks i la ts iv ov -> invocation_is h0 y fos ops inv ->
  simulates h0 ft fts fs n x ks y inv k i h.
Proof.
  intros S I. pose proof (st_x _ _ _ _ _ _ _ _ _ _ _ _ _ S) as X.
  assert (Stdin : forall v k, k = Stdin v \/ (k = NoOperandsStdin /\ v = Nat.eqb (length (operand_list inv)) 0) ->
    call_io_h y k (HRef x) h = set_implicit_use_of_stdin_h v (HRef x) h -> simulates h0 ft fts fs n x ks y inv k i h).
  { intros v k0 K E. assert (R : call_io inv k0 i = Ok (set_implicit_use_of_stdin v i)).
    { destruct K as [->|(-> & ->)]; [reflexivity|]. cbn. unfold if_no_operands_given_stdin_implicitly_used, set_implicit_use_of_stdin. now destruct (operand_list inv). }
    assert (NA : forall j t, ~ assigns k0 n j t) by (apply unnamed_none; destruct K as [->|(-> & _)]; reflexivity).
    unfold simulates. rewrite R, E. destruct v.
    - unfold set_implicit_use_of_stdin_h. rewrite (implicit_run _ _ _ _ _ _ _ X). exists la, ts, (HRef (Datatypes.S (Datatypes.S (length h)))), ov.
      now apply (implicit_step _ _ _ _ _ _ _ _ _ _ _ _ _ inv k0 _ STDIN STREAM_INPUT S NA R).
    - cbn. exists la, ts, iv, ov. now apply (idle_step _ _ _ _ _ _ _ _ _ _ _ _ _ inv k0 _ S NA R). }
  assert (Idle : idle k -> simulates h0 ft fts fs n x ks y inv k i h).
  { intros D. assert (R : call_io inv k i = Ok i) by (unfold idle in D; cbn in D; destruct D as [<-|[<-|[<-|[]]]]; reflexivity).
    assert (E : call_io_h y k (HRef x) h = (h, Ok tt)) by (unfold idle in D; cbn in D; destruct D as [<-|[<-|[<-|[]]]]; reflexivity).
    unfold simulates. rewrite R, E. exists la, ts, iv, ov. apply (idle_step _ _ _ _ _ _ _ _ _ _ _ _ _ inv k _ S); auto. exact (idle_none k n D). }
  destruct k; try (apply Idle; unfold idle; cbn; tauto);
    try (eapply sim_all; [exact S|reflexivity|unfold idle; cbn; intuition discriminate|reflexivity|unfold indexed; cbn; intuition discriminate|reflexivity]);
    try (eapply sim_first; [exact S|reflexivity|unfold idle; cbn; intuition discriminate|reflexivity|unfold indexed; cbn; tauto|reflexivity]);
    try (eapply sim_last; [exact S|reflexivity|unfold idle; cbn; intuition discriminate|reflexivity|unfold indexed; cbn; tauto|reflexivity]);
    try (eapply sim_but_first; [exact S|reflexivity|unfold idle; cbn; intuition discriminate|reflexivity|unfold indexed; cbn; tauto|reflexivity]);
    try (eapply sim_but_last; [exact S|reflexivity|unfold idle; cbn; intuition discriminate|reflexivity|unfold indexed; cbn; tauto|reflexivity]).
  - eapply Stdin; eauto.
  - assert (R : call_io inv (Stdout value) i = Ok (set_implicit_use_of_stdout value i)) by reflexivity.
    assert (NA : forall j t, ~ assigns (Stdout value) n j t) by (apply unnamed_none; reflexivity).
    unfold simulates. rewrite R. change (call_io_h y (Stdout value) (HRef x) h) with (set_implicit_use_of_stdout_h value (HRef x) h). destruct value.
    + unfold set_implicit_use_of_stdout_h. rewrite (implicit_run _ _ _ _ _ _ _ X). exists la, ts, iv, (HRef (Datatypes.S (Datatypes.S (length h)))).
      now apply (implicit_step _ _ _ _ _ _ _ _ _ _ _ _ _ inv (Stdout true) _ STDOUT STREAM_OUTPUT S NA R).
    + cbn. exists la, ts, iv, ov. now apply (idle_step _ _ _ _ _ _ _ _ _ _ _ _ _ inv (Stdout false) _ S NA R).
  - apply (Stdin (Nat.eqb (length (operand_list inv)) 0)); [auto|].
    destruct (invocation_later _ _ _ _ _ _ (st_unchanged _ _ _ _ _ _ _ _ _ _ _ _ _ S) I) as (l & fl & ol & -> & Q & _ & (a & -> & Qo & F)).
    cbn [call_io_h]. rewrite (bind_ok _ _ _ _ _ (get_attr_ok _ _ _ _ "operand_list" _ Q eq_refl)), (bind_ok _ _ _ _ _ (items_ok _ _ _ Qo)).
    rewrite (Forall2_length _ _ _ F). now destruct (Nat.eqb (length (operand_list inv)) 0).
Qed.
(** Several calls *)
Lemma calls_sim h0 ft fts fs n x y fos ops inv : invocation_is h0 y fos ops inv -> forall ks' ks h i la ts iv ov, st h0 h ft fts fs n x ks i la ts iv ov ->
  match call_ios_h y ks' (HRef x) h, call_ios inv ks' i with
  | (h', Ok _), Ok i' => exists la ts iv ov, st h0 h' ft fts fs n x (ks ++ ks') i' la ts iv ov
  | (h', Raise e), Raise e' => e = e' /\ unchanged h0 h'
  | _, _ => False
  end.
Proof.
  intros I. induction ks' as [|k ks' IH]; intros ks h i la ts iv ov S; [cbn; rewrite app_nil_r; eauto|].
  pose proof (call_sim _ _ _ _ _ _ _ _ _ _ _ _ _ y fos ops inv k S I) as M. unfold simulates in M. cbn [call_ios_h call_ios].
  destruct (call_io_h y k (HRef x) h) as (h1 & [[]|e]) eqn:E1, (call_io inv k i) as [i1|e'] eqn:E2; try contradiction; cbn [bind].
  - unfold hbind. rewrite E1. destruct M as (la1 & ts1 & iv1 & ov1 & S1). specialize (IH _ _ _ _ _ _ _ S1).
    destruct (call_ios_h y ks' (HRef x) h1) as (h2 & [u|e]), (call_ios inv ks' i1) as [i2|e']; auto. rewrite <- app_assoc in IH. exact IH.
  - rewrite (bind_raise _ _ _ _ _ E1). exact M.
Qed.
(** The information as it is made *)
Lemma start h ft fts fs n : closed h -> list_is typer_is h ft fts fs ->
  exists h' x la ts, new_io_info_h ft n HNone HNone h = (h', Ok (HRef x)) /\ st h h' ft fts fs n x [] (new_io_info fs n) la ts HNone HNone.
Proof.
  intros C F. destruct (C94_constructed h ft fts fs n HNone HNone None None C F eq_refl eq_refl) as (h' & x & t & E & U & C' & I).
  pose proof (new_info_heap h ft n HNone HNone) as E'. cbv zeta in E'. rewrite E in E'. injection E' as Eh Ex.
  exists h', (3 + length h), (2 + length h), (repeat (HRef (1 + length h)) n). subst x. split; [exact E|].
  destruct I as (l & ft' & ot & Q & X & Fl & (a & Ea & La & To) & _). injection Q as <-.
  assert (X' : nth_error h' (3 + length h) = Some (info_obj ft (2 + length h) HNone HNone)).
  { rewrite Eh. rewrite nth_error_app2 by lia. now replace (3 + length h - length h) with 3 by lia. }
  change (S (S (S (length h)))) with (3 + length h) in *. rewrite X in X'. unfold info_obj in X'. injection X' as -> Eot. rewrite Eot in Ea. injection Ea as <-.
  assert (La' : nth_error h' (2 + length h) = Some (OList (repeat (HRef (1 + length h)) n))).
  { rewrite Eh. rewrite nth_error_app2 by lia. now replace (2 + length h - length h) with 2 by lia. }
  constructor; auto; try reflexivity; try lia.
  - rewrite X. now rewrite Eot.
  - apply repeat_length.
  - change (2 + length h) with (S (S (length h))) in La'. rewrite La in La'. injection La' as Et. change (1 + length h) with (S (length h)). rewrite <- Et. exact To.
  - intros p q u v P Q. assert (Eu : forall j u, nth_error (repeat (HRef (1 + length h)) n) j = Some u -> u = HRef (1 + length h)) by (intros j w J; eapply repeat_spec, nth_error_In; eauto).
    rewrite (Eu p u P), (Eu q v Q). split; [|reflexivity]. intros _. right. intros k t' [].
  - intros p q u v r P Q _ _. assert (Eu : forall j u, nth_error (repeat (HRef (1 + length h)) n) j = Some u -> u = HRef (1 + length h)) by (intros j w J; eapply repeat_spec, nth_error_In; eauto).
    apply Eu in P. apply Eu in Q. congruence.
  - intros p a0 P. apply nth_error_In, repeat_spec in P. injection P as ->. split; [lia|]. intros w c Q.
    rewrite Eh in Q. rewrite nth_error_app2 in Q by lia. match type of Q with nth_error _ ?m = _ => replace m with 1 in Q by lia end. injection Q as _ <-. split; [lia|].
    exists STREAM_INPUT. rewrite Eh. rewrite nth_error_app2 by lia. now rewrite Nat.sub_diag.
  - now left.
  - now left.
Qed.
