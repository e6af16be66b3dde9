(** * Which operands share an access (C95) *)
From Coq Require Import Lia.
Require Import Verif.PyBase Verif.JsonData Verif.Parser Verif.Access Verif.IOInfo Verif.IOGen Verif.IOVars Verif.IOHelpers Verif.SpecIOHelpers
  Verif.Heap Verif.HeapApply Verif.HeapIOHelpers Verif.SpecHeap Verif.SpecApply Verif.SpecShare
  Verif.HeapFacts Verif.HeapSep Verif.HeapCopy Verif.IOFacts Verif.P_Heap Verif.ApplyFacts Verif.P_Infer Verif.P_Apply Verif.P_IOHelpers Verif.ShareFacts.

Lemma st_info h0 h ft fts fs n x ks i la ts iv ov : st h0 h ft fts fs n x ks i la ts iv ov -> info_is h (HRef x) fts ts iv ov i.
Proof.
  intros [U C X Xn L Ln N T I O FT FS Sh Di Fr Fi Fo]. exists x, ft, (HRef la). split; [reflexivity|]. split; [exact X|]. split.
  - rewrite FS. eapply list_later; [exact U| |exact FT]; intros; eapply typer_later; eauto.
  - split; [exists la; auto|auto].
Qed.
Lemma generated h ft fts fs y fos ops inv ks : closed h -> list_is typer_is h ft fts fs -> invocation_is h y fos ops inv ->
  match generate_h ft y ks h, (let! i := call_ios inv ks (new_io_info fs (length (operand_list inv))) in apply_io_info i inv) with
  | (h', Ok r), Ok c => exists h1 x i la ts iv ov, st h h1 ft fts fs (length (operand_list inv)) x ks i la ts iv ov /\
      apply_io_info i inv = Ok c /\ apply_io_info_h (HRef x) y h1 = (h', Ok r)
  | (h', Raise e), Raise e' => unchanged h h' /\ e = e'
  | _, _ => False
  end.
Proof.
  intros C F V. pose proof V as (l & fl & ol & -> & Q & _ & (a & -> & Qo & Fo)). pose proof (Forall2_length _ _ _ Fo) as Ln.
  destruct (start h ft fts fs (length (operand_list inv)) C F) as (h1 & x & la & ts & E & S).
  unfold generate_h. rewrite (bind_ok _ _ _ _ _ (get_attr_ok _ _ _ _ "operand_list" _ Q eq_refl)), (bind_ok _ _ _ _ _ (items_ok _ _ _ Qo)). rewrite Ln.
  rewrite (bind_ok _ _ _ _ _ E). pose proof (calls_sim h ft fts fs _ x (HRef l) fos ops inv V ks [] h1 _ la ts HNone HNone S) as M. cbn [app] in M.
  destruct (call_ios_h (HRef l) ks (HRef x) h1) as (h2 & [[]|e]) eqn:E2, (call_ios inv ks _) as [i|e'] eqn:E3; try contradiction; cbn [bind].
  - destruct M as (la2 & ts2 & iv & ov & S2).
    assert (B : forall (k : hm hval), (run! _ := call_ios_h (HRef l) ks (HRef x) in k) h1 = k h2) by (intros k; unfold hbind; now rewrite E2). rewrite B. clear B.
    pose proof (C94_applied _ _ _ _ _ _ _ _ _ _ _ (st_closed _ _ _ _ _ _ _ _ _ _ _ _ _ S2) (st_info _ _ _ _ _ _ _ _ _ _ _ _ _ S2)
      (invocation_later _ _ _ _ _ _ (st_unchanged _ _ _ _ _ _ _ _ _ _ _ _ _ S2) V)) as A.
    destruct (apply_io_info_h (HRef x) (HRef l) h2) as (h3 & [r|e]) eqn:E4, (apply_io_info i inv) as [c|e'] eqn:E5; try contradiction.
    + exists h2, x, i, la2, ts2, iv, ov. auto.
    + destruct A as (A & ->). split; [|reflexivity]. eapply unchanged_trans; [exact (st_unchanged _ _ _ _ _ _ _ _ _ _ _ _ _ S2)|exact A].
  - rewrite (bind_raise _ _ _ _ _ E2). destruct M as (-> & U). auto.
Qed.

(** A generator on objects makes what the model on values says, and leaves every object there was
    as it was. *)
Theorem C95_generated : forall h ft fts fs y fos ops inv ks, closed h -> list_is typer_is h ft fts fs -> invocation_is h y fos ops inv ->
  match generate_h ft y ks h, (let! i := call_ios inv ks (new_io_info fs (length (operand_list inv))) in apply_io_info i inv) with
  | (h', Ok r), Ok c => unchanged h h' /\ closed h' /\ invocation_io_is h' r c
  | (h', Raise e), Raise e' => unchanged h h' /\ e = e'
  | _, _ => False
  end.
Proof.
  intros h ft fts fs y fos ops inv ks C F V. pose proof (generated h ft fts fs y fos ops inv ks C F V) as G.
  destruct (generate_h ft y ks h) as (h' & [r|e]), (let! i := _ in _) as [c|e']; auto.
  destruct G as (h1 & x & i & la & ts & iv & ov & S & Ec & E). pose proof (invocation_later _ _ _ _ _ _ (st_unchanged _ _ _ _ _ _ _ _ _ _ _ _ _ S) V) as V1.
  pose proof (C94_applied _ _ _ _ _ _ _ _ _ _ _ (st_closed _ _ _ _ _ _ _ _ _ _ _ _ _ S) (st_info _ _ _ _ _ _ _ _ _ _ _ _ _ S) V1) as A. rewrite E, Ec in A.
  destruct A as (U & A). destruct (applied _ _ _ _ _ _ _ _ _ _ _ _ _ (st_closed _ _ _ _ _ _ _ _ _ _ _ _ _ S) (st_info _ _ _ _ _ _ _ _ _ _ _ _ _ S) V1 E) as (_ & C' & _).
  split; [|auto]. eapply unchanged_trans; [exact (st_unchanged _ _ _ _ _ _ _ _ _ _ _ _ _ S)|exact U].
Qed.
Print Assumptions C95_generated.

(** ** The operands of the result *)
Lemma result_unique h x f1 o1 f2 o2 : result_lists h x f1 o1 -> result_lists h x f2 o2 -> f1 = f2 /\ o1 = o2.
Proof.
  intros (l & at1 & fl & ol & -> & A1 & A2 & A3 & A4 & A5) (l' & at2 & fl' & ol' & Q & B1 & B2 & B3 & B4 & B5).
  injection Q as <-. rewrite A1 in B1. injection B1 as <-. rewrite A2 in B2. injection B2 as <-. rewrite A4 in B4. injection B4 as <-.
  rewrite A3 in B3. rewrite A5 in B5. injection B3 as <-. injection B5 as <-. auto.
Qed.
Lemma Forall2_nth_r {A B} (R : A -> B -> Prop) l m : Forall2 R l m -> forall j b, nth_error m j = Some b -> exists a, nth_error l j = Some a /\ R a b.
Proof. induction 1 as [|a b l m X F IH]; intros [|j] z E; cbn in E; try discriminate; [injection E as <-; exists a; auto|exact (IH j z E)]. Qed.
Lemma nth_combine {A B} (l : list A) (m : list B) j p : nth_error (combine l m) j = Some p -> nth_error l j = Some (fst p) /\ nth_error m j = Some (snd p).
Proof. revert m j. induction l as [|a l IH]; intros [|b m] [|j] E; cbn in *; try discriminate; [injection E as <-; auto|now apply IH]. Qed.
Lemma io_operands h' r c fos' ops' : invocation_io_is h' r c -> result_lists h' r fos' ops' -> Forall2 (fun v z => view_val h' v = Some (arg_value z)) ops' (io_operand_list c).
Proof.
  intros (l1 & fl1 & ol1 & i1 & o1 & fos1 & ops1 & Q & B1 & _ & (b & Eb & B2 & B3) & _) (l' & at1 & fl & ol & Q' & A1 & _ & _ & A4 & A5).
  rewrite Q in Q'. injection Q' as <-. rewrite B1 in A1. injection A1 as <-. cbn in A4. injection A4 as A4. rewrite A4 in Eb. injection Eb as <-.
  rewrite A5 in B2. injection B2 as <-. exact B3.
Qed.
Lemma access_view h v r p : has_access h v r -> view_val h v = Some p -> exists el k, p = PRes (mkRes el k) /\ view_access h r = Some k /\
  exists l c n, v = HRef l /\ In c ["FileNameWithIOInfo"; "StdDescriptorWithIOInfo"] /\ nth_error h l = Some (OInst c [("name", n); ("access", r)]) /\
    (forall m, n <> HRef m) /\ forall h2 r2 k2, nth_error h2 l = Some (OInst c [("name", n); ("access", r2)]) -> view_access h2 r2 = Some k2 -> view_val h2 v = Some (PRes (mkRes el k2)).
Proof.
  intros (l & c & n & -> & I & E) V. apply view_val_form in V.
  inversion V as [| |l0 attrs s N1 N2 X1 X2|l0 attrs s r0 ac N1 N2 N3 N4 X1 X2|l0 attrs s r0 ac N1 N2 N3 N4 X1 X2]; subst; rewrite E in N1; injection N1 as -> <-.
  - cbn in I. destruct I as [I|[I|[]]]; discriminate.
  - cbn in N2, N3. injection N2 as ->. injection N3 as <-. eexists _, _. split; [reflexivity|]. split; [exact N4|]. exists l, "FileNameWithIOInfo", (HStr s).
    split; [reflexivity|]. split; [exact I|]. split; [exact E|]. split; [discriminate|]. intros h2 r2 k2 E2 K2. apply view_val_form. eapply vf_file; [exact E2|reflexivity|reflexivity|exact K2].
  - cbn in N2, N3. injection N2 as ->. injection N3 as <-. eexists _, _. split; [reflexivity|]. split; [exact N4|]. exists l, "StdDescriptorWithIOInfo", (HStd s).
    split; [reflexivity|]. split; [exact I|]. split; [exact E|]. split; [discriminate|]. intros h2 r2 k2 E2 K2. apply view_val_form. eapply vf_std; [exact E2|reflexivity|reflexivity|exact K2].
Qed.
(** What is known of operand [p] of the result *)
Lemma operand_made h h1 h' ft fts fs y fos ops inv ks x i la ts iv ov c r fos' ops' : let n := length (operand_list inv) in
  closed h -> invocation_is h y fos ops inv -> st h h1 ft fts fs n x ks i la ts iv ov -> apply_io_info i inv = Ok c -> apply_io_info_h (HRef x) y h1 = (h', Ok r) ->
  result_lists h' r fos' ops' -> forall p v, nth_error ops' p = Some v ->
  exists u a z, nth_error ts p = Some (HRef u) /\ nth_error (io_operand_list c) p = Some z /\ view_val h' v = Some (arg_value z) /\
   (((exists s, z = ArgString s) /\ forall b, ~ has_access h' v b) \/
    ((exists e, z = Res e) /\ has_access h' v (HRef a) /\ nth_error h1 u = Some (typer_obj "filestd" (HRef a)) /\ length h <= a /\ exists k, nth_error h' a = Some (OInst "AccessKind" [("kind", HAccess k)]))).
Proof.
  intros n C V S Ec E RL p v P. pose proof (invocation_later _ _ _ _ _ _ (st_unchanged _ _ _ _ _ _ _ _ _ _ _ _ _ S) V) as V1.
  pose proof (st_closed _ _ _ _ _ _ _ _ _ _ _ _ _ S) as C1. pose proof (st_info _ _ _ _ _ _ _ _ _ _ _ _ _ S) as I1.
  pose proof (C94_applied _ _ _ _ _ _ _ _ _ _ _ C1 I1 V1) as A. rewrite E, Ec in A. destruct A as (U & A).
  destruct (applied _ _ _ _ _ _ _ _ _ _ _ _ _ C1 I1 V1 E) as (_ & C' & _ & (fos2 & ops2 & RL2 & _ & Ko) & _). destruct (result_unique _ _ _ _ _ _ RL RL2) as (<- & <-).
  destruct (Forall2_nth_r _ _ _ Ko p v P) as ((op & tv) & Pc & K). cbn [snd] in K. apply nth_combine in Pc as (Po & Pt). cbn [fst snd] in Po, Pt.
  destruct (nth_Forall2 _ _ _ (io_operands _ _ _ _ _ A RL) p v P) as (z & Pz & Vz).
  destruct (nth_Forall2 _ _ _ (st_ts _ _ _ _ _ _ _ _ _ _ _ _ _ S) p tv Pt) as (t & Pi & (u & w & r0 & -> & Qu & T)).
  unfold apply_io_info in Ec. destruct (map_result _ (combine (flag_option_list inv) _)) as [fl|] eqn:Ef; [|discriminate]. cbn [bind] in Ec.
  destruct (map_result _ (combine (operand_list inv) _)) as [os|] eqn:Eo; [|discriminate]. cbn [bind] in Ec. injection Ec as <-. cbn [io_operand_list] in Pz.
  apply map_result_Forall2 in Eo. destruct (Forall2_nth_r _ _ _ Eo p z Pz) as ((s & t') & Ps & Ap). apply nth_combine in Ps as (_ & Ps). cbn [fst snd] in Ps, Ap.
  rewrite Pi in Ps. injection Ps as <-.
  assert (NoArg : forall s', z = ArgString s' -> forall b, ~ has_access h' v b).
  { intros s' -> b Ha. destruct (access_view _ _ _ _ Ha Vz) as (el & k & Q & _). discriminate. }
  destruct t as [a| |]; [|cbn in Ap; injection Ap as <-|discriminate Ap].
  - destruct T as (-> & Va). destruct r0 as [| | | | | | |ac]; try discriminate Va. exists u, ac, z. split; [exact Pt|]. split; [exact Pz|]. split; [exact Vz|]. right. split.
    + unfold apply_typer_to_arg in Ap. destruct (is_any_input a); [injection Ap as <-; eauto|]. destruct (is_any_output a); [injection Ap as <-; eauto|discriminate].
    + destruct (K u (HRef ac) eq_refl Qu) as (l & cl & nm & -> & Bl & Icl & El). split; [exists l, cl, nm; auto|]. split; [exact Qu|].
      destruct (st_fresh _ _ _ _ _ _ _ _ _ _ _ _ _ S p u Pt) as (_ & G). destruct (G _ _ Qu) as (L & k & Q). split; [exact L|]. exists k. eapply nth_later; eauto.
  - exists u, 0, (ArgString s). split; [exact Pt|]. split; [exact Pz|]. split; [exact Vz|]. left. split; [eauto|]. eapply NoArg; eauto.
Qed.

(** The access of an operand is an object made for it: it is there in no other invocation and in
    no other generator. *)
Theorem C95_access : forall h ft fts fs y fos ops inv ks h' r fos' ops', closed h -> list_is typer_is h ft fts fs -> invocation_is h y fos ops inv ->
  generate_h ft y ks h = (h', Ok r) -> result_lists h' r fos' ops' ->
  length ops' = length (operand_list inv) /\
  forall p v, nth_error ops' p = Some v ->
    (exists e, view_val h' v = Some (PRes e)) <-> (exists a, has_access h' v (HRef a) /\ length h <= a).
Proof.
  intros h ft fts fs y fos ops inv ks h' r fos' ops' C F V E RL. pose proof (generated h ft fts fs y fos ops inv ks C F V) as G. rewrite E in G.
  destruct (let! i := _ in _) as [c|e'] in G; [|contradiction]. destruct G as (h1 & x & i & la & ts & iv & ov & S & Ec & Ea). split.
  - pose proof (invocation_later _ _ _ _ _ _ (st_unchanged _ _ _ _ _ _ _ _ _ _ _ _ _ S) V) as V1.
    destruct (applied _ _ _ _ _ _ _ _ _ _ _ _ _ (st_closed _ _ _ _ _ _ _ _ _ _ _ _ _ S) (st_info _ _ _ _ _ _ _ _ _ _ _ _ _ S) V1 Ea) as (_ & _ & _ & (fos2 & ops2 & RL2 & _ & Ko) & _).
    destruct (result_unique _ _ _ _ _ _ RL RL2) as (<- & <-). rewrite <- (Forall2_length _ _ _ Ko), combine_length, (st_n _ _ _ _ _ _ _ _ _ _ _ _ _ S).
    destruct V as (b & fl & ol & _ & _ & _ & (b2 & _ & _ & Fo)). rewrite (Forall2_length _ _ _ Fo). lia.
  - intros p v P. destruct (operand_made h h1 h' ft fts fs y fos ops inv ks x i la ts iv ov c r fos' ops' C V S Ec Ea RL p v P) as (u & a & z & _ & _ & Vz & [((s & ->) & N)|((e & ->) & Ha & _ & L & _)]).
    + split; [intros (e & Q); rewrite Vz in Q; discriminate|]. intros (b & Hb & _). exfalso. exact (N _ Hb).
    + split; eauto.
Qed.
Print Assumptions C95_access.

(** Two operands have one access between them exactly when one call was the last about both, or no
    call was about either of them. *)
Theorem C95_shared_iff : forall h ft fts fs y fos ops inv ks h' r fos' ops' p q v w a b, closed h -> list_is typer_is h ft fts fs -> invocation_is h y fos ops inv ->
  generate_h ft y ks h = (h', Ok r) -> result_lists h' r fos' ops' -> nth_error ops' p = Some v -> nth_error ops' q = Some w ->
  has_access h' v a -> has_access h' w b ->
  (a = b <-> together ks (length (operand_list inv)) p q).
Proof.
  intros h ft fts fs y fos ops inv ks h' r fos' ops' p q v w a b C F V E RL P Q Ha Hb. pose proof (generated h ft fts fs y fos ops inv ks C F V) as G. rewrite E in G.
  destruct (let! i := _ in _) as [c|e'] in G; [|contradiction]. destruct G as (h1 & x & i & la & ts & iv & ov & S & Ec & Ea).
  assert (Uniq : forall v a b, has_access h' v a -> has_access h' v b -> a = b).
  { intros u a1 b1 (l & cl & nm & -> & _ & E1) (l' & cl' & nm' & Q' & _ & E2). injection Q' as <-. rewrite E1 in E2. injection E2 as _ _ ->. reflexivity. }
  destruct (operand_made h h1 h' ft fts fs y fos ops inv ks x i la ts iv ov c r fos' ops' C V S Ec Ea RL p v P) as (u1 & a1 & z1 & T1 & _ & _ & [(_ & N)|(_ & H1 & O1 & _)]); [exfalso; exact (N _ Ha)|].
  destruct (operand_made h h1 h' ft fts fs y fos ops inv ks x i la ts iv ov c r fos' ops' C V S Ec Ea RL q w Q) as (u2 & a2 & z2 & T2 & _ & _ & [(_ & N)|(_ & H2 & O2 & _)]); [exfalso; exact (N _ Hb)|].
  rewrite (Uniq _ _ _ Ha H1), (Uniq _ _ _ Hb H2). rewrite <- (st_share _ _ _ _ _ _ _ _ _ _ _ _ _ S p q _ _ T1 T2). split.
  - intros [= <-]. f_equal. exact (st_distinct _ _ _ _ _ _ _ _ _ _ _ _ _ S p q u1 u2 (HRef a1) T1 T2 O1 O2).
  - intros [= <-]. rewrite O1 in O2. injection O2 as <-. reflexivity.
Qed.
Print Assumptions C95_shared_iff.

(** So whoever holds one operand can change what another one is exactly then. *)
Theorem C95_client_iff : forall h ft fts fs y fos ops inv ks h' r fos' ops' p q v w ev ew, closed h -> list_is typer_is h ft fts fs -> invocation_is h y fos ops inv ->
  generate_h ft y ks h = (h', Ok r) -> result_lists h' r fos' ops' -> nth_error ops' p = Some v -> nth_error ops' q = Some w ->
  view_val h' v = Some (PRes ev) -> view_val h' w = Some (PRes ew) ->
  (together ks (length (operand_list inv)) p q -> forall k, exists h2 held, client h' [v] h2 held /\ view_val h2 w = Some (PRes (mkRes (res_el ew) k))) /\
  (~ together ks (length (operand_list inv)) p q -> forall h2 held, client h' [v] h2 held -> view_val h2 w = Some (PRes ew)).
Proof.
  intros h ft fts fs y fos ops inv ks h' r fos' ops' p q v w ev ew C F V E RL P Q Vv Vw.
  pose proof (C95_generated h ft fts fs y fos ops inv ks C F V) as G'. rewrite E in G'.
  pose proof (generated h ft fts fs y fos ops inv ks C F V) as G. rewrite E in G.
  destruct (let! i := _ in _) as [c|e']; [|contradiction]. destruct G' as (_ & C' & _). destruct G as (h1 & x & i & la & ts & iv & ov & S & Ec & Ea).
  destruct (operand_made h h1 h' ft fts fs y fos ops inv ks x i la ts iv ov c r fos' ops' C V S Ec Ea RL p v P) as (u1 & a1 & z1 & _ & _ & Z1 & [((s & ->) & _)|(_ & H1 & _ & _ & (k1 & A1))]); [rewrite Vv in Z1; discriminate|].
  destruct (operand_made h h1 h' ft fts fs y fos ops inv ks x i la ts iv ov c r fos' ops' C V S Ec Ea RL q w Q) as (u2 & a2 & z2 & _ & _ & Z2 & [((s & ->) & _)|(_ & H2 & _ & _ & (k2 & A2))]); [rewrite Vw in Z2; discriminate|].
  pose proof (C95_shared_iff h ft fts fs y fos ops inv ks h' r fos' ops' p q v w (HRef a1) (HRef a2) C F V E RL P Q H1 H2) as Iff.
  destruct (access_view _ _ _ _ H1 Vv) as (el1 & kk1 & _ & _ & (l1 & cl1 & nm1 & -> & I1 & E1 & Nm1 & _)).
  destruct (access_view _ _ _ _ H2 Vw) as (el2 & kk2 & Q2 & _ & (l2 & cl2 & nm2 & -> & I2 & E2 & Nm2 & Vn)). injection Q2 as ->. cbn [res_el].
  split.
  - intros T k. apply Iff in T. injection T as ->. set (ob := OInst "AccessKind" [("kind", HAccess k)]).
    exists (update h' a2 ob), [HRef a2; HRef l1]. split.
    + eapply client_read with (v := HRef a2); [now left|exact E1|cbn; auto|]. eapply (client_write h' [HRef a2; HRef l1] a2 ob); [now left|repeat constructor|apply client_stop].
    + apply (Vn _ (HRef a2) k).
      * rewrite update_other; [exact E2|]. intros ->. rewrite A2 in E2. discriminate E2.
      * unfold view_access, attr. rewrite update_same by (eapply nth_bound; eauto). reflexivity.
  - intros T h2 held Cl.
    assert (Na : a1 <> a2) by (intros ->; apply T, Iff; reflexivity). assert (Nl : l1 <> l2) by (intros ->; rewrite E1 in E2; injection E2 as _ _ ->; contradiction).
    assert (Kc : forall l c n r0 a k, nth_error h' l = Some (OInst c [("name", n); ("access", r0)]) -> In c ["FileNameWithIOInfo"; "StdDescriptorWithIOInfo"] ->
      nth_error h' a = Some (OInst "AccessKind" [("kind", HAccess k)]) -> l <> a).
    { intros l c0 n r0 a k El Ic Ek ->. rewrite El in Ek. discriminate Ek. }
    assert (Rv : forall l, reaches h' (HRef l1) l -> l = l1 \/ l = a1).
    { intros l R. inversion R as [|l0 o0 v0 l' Eo J R']; subst; [now left|]. rewrite E1 in Eo. injection Eo as <-. cbn in J. destruct J as [<-|[<-|[]]].
      - exfalso. inversion R'; subst; eapply Nm1; reflexivity.
      - inversion R' as [|l0 o0 v0 l' Eo J R'']; subst; [now right|]. rewrite A1 in Eo. injection Eo as <-. cbn in J. destruct J as [<-|[]]. inversion R''. }
    assert (Keep : forall l, l < length h' -> l <> l1 -> l <> a1 -> nth_error h2 l = nth_error h' l).
    { intros l L N1 N2. eapply held_confined; [exact C'|constructor; [|constructor]|exact Cl|exact L|]; [cbn; eapply nth_bound; eauto|].
      intros q0 [<-|[]] R. destruct (Rv l R); contradiction. }
    rewrite <- Vw.
    assert (K2 : view_access h' (HRef a2) = Some kk2) by (clear - Vw E2 I2; apply view_val_form in Vw; inversion Vw as [| | |l0 attrs s r0 ac N1 N2 N3 N4 X1 X2|l0 attrs s r0 ac N1 N2 N3 N4 X1 X2]; subst; rewrite E2 in N1; injection N1 as -> <-; cbn in N3; injection N3 as <-; exact N4).
    rewrite Vw. apply (Vn _ (HRef a2) kk2).
    + rewrite Keep; [exact E2|eapply nth_bound; eauto|auto|exact (Kc _ _ _ _ _ _ E2 I2 A1)].
    + unfold view_access, attr in *. rewrite Keep; [exact K2|eapply nth_bound; eauto| |auto]. intros Q0. symmetry in Q0. exact (Kc _ _ _ _ _ _ E1 I1 A2 Q0).
Qed.
Print Assumptions C95_client_iff.

(** ** What a generator takes over of the objects there were *)
Lemma taken_same h h' ft fts fs y fos ops inv l : closed h -> unchanged h h' -> list_is typer_is h ft fts fs -> invocation_is h y fos ops inv ->
  (taken_over h' fos fts l <-> taken_over h fos fts l).
Proof.
  intros C U (a & -> & Lf & _) (b & fl & ol & _ & _ & (b1 & -> & Lfl & _) & _).
  assert (Vt : forall ts a v, nth_error h a = Some (OList ts) -> In v ts -> valid h v) by (intros; eapply slot_valid; eauto).
  split; intros (fo & t & J & X); exists fo, t; (split; [exact J|]); pose proof (Vt _ _ _ Lfl (in_combine_l _ _ _ _ J)) as V1; pose proof (Vt _ _ _ Lf (in_combine_r _ _ _ _ J)) as V2;
    unfold brought_by_flagoption in *; rewrite !(class_same h h'), (reaches_same h h'), (typer_same h h') in * by auto; exact X.
Qed.
Lemma taken_bound h fos fts l : taken_over h fos fts l -> l < length h.
Proof. intros (fo & t & _ & [(_ & R)|(_ & k & r & _ & _ & R)]); eapply reaches_bound; eauto. Qed.
Lemma access_reach h a k l : nth_error h a = Some (OInst "AccessKind" [("kind", HAccess k)]) -> reaches h (HRef a) l -> l = a.
Proof. intros E R. inversion R as [|l0 o0 v0 l' Eo J R']; subst; [reflexivity|]. rewrite E in Eo. injection Eo as <-. cbn in J. destruct J as [<-|[]]. inversion R'. Qed.
Lemma std_reach h0 h v l : std_fresh h0 h v -> reaches h v l -> length h0 <= l.
Proof.
  intros [->|(c & a & d & k & -> & C & A & Q & R)] X; [inversion X|]. inversion X as [|l0 o0 v0 l' Eo J R']; subst; [exact C|]. rewrite Q in Eo. injection Eo as <-.
  cbn in J. destruct J as [<-|[<-|[]]]; [inversion R'|]. rewrite (access_reach _ _ _ _ R R'). exact A.
Qed.
(** The result is made of new objects, but for the flags and the accesses of the options. *)
Theorem C95_old_objects : forall h ft fts fs y fos ops inv ks h' r, closed h -> list_is typer_is h ft fts fs -> invocation_is h y fos ops inv ->
  generate_h ft y ks h = (h', Ok r) -> forall l, l < length h -> (reaches h' r l <-> taken_over h fos fts l).
Proof.
  intros h ft fts fs y fos ops inv ks h' r C F V E l L. pose proof (generated h ft fts fs y fos ops inv ks C F V) as G. rewrite E in G.
  destruct (let! i := _ in _) as [c|e'] in G; [|contradiction]. destruct G as (h1 & x & i & la & ts & iv & ov & S & Ec & Ea).
  pose proof (st_unchanged _ _ _ _ _ _ _ _ _ _ _ _ _ S) as U. pose proof (invocation_later _ _ _ _ _ _ U V) as V1. pose proof (unchanged_length _ _ U) as Len.
  destruct (applied _ _ _ _ _ _ _ _ _ _ _ _ _ (st_closed _ _ _ _ _ _ _ _ _ _ _ _ _ S) (st_info _ _ _ _ _ _ _ _ _ _ _ _ _ S) V1 Ea) as (_ & _ & _ & _ & R).
  rewrite R by lia. rewrite <- (taken_same h h1 ft fts fs y fos ops inv l C U F V). split; [|intros T; left; exact T].
  intros [T|[(op & t & J & (k & r0 & -> & Q & Rr))|[Rr|Rr]]]; [exact T| | |]; exfalso.
  - apply in_combine_r in J. apply In_nth_error in J as (p & J). destruct (st_fresh _ _ _ _ _ _ _ _ _ _ _ _ _ S p k J) as (_ & G).
    destruct r0 as [| | | | | | |a]; try (inversion Rr; fail). destruct (G _ _ Q) as (La & m & Qa). rewrite (access_reach _ _ _ _ Qa Rr) in L. lia.
  - pose proof (std_reach _ _ _ _ (st_fi _ _ _ _ _ _ _ _ _ _ _ _ _ S) Rr). lia.
  - pose proof (std_reach _ _ _ _ (st_fo _ _ _ _ _ _ _ _ _ _ _ _ _ S) Rr). lia.
Qed.
Print Assumptions C95_old_objects.
(** So the results of two generators have in common only what the flags and options of both take
    over; not even for one and the same invocation do they share an operand or an access of one. *)
Theorem C95_two_generators : forall h ft1 fts1 fs1 ft2 fts2 fs2 y1 fos1 ops1 inv1 y2 fos2 ops2 inv2 ks1 ks2 h1 h2 r1 r2, closed h ->
  list_is typer_is h ft1 fts1 fs1 -> list_is typer_is h ft2 fts2 fs2 -> invocation_is h y1 fos1 ops1 inv1 -> invocation_is h y2 fos2 ops2 inv2 ->
  generate_h ft1 y1 ks1 h = (h1, Ok r1) -> generate_h ft2 y2 ks2 h1 = (h2, Ok r2) ->
  forall l, (reaches h2 r1 l /\ reaches h2 r2 l <-> taken_over h fos1 fts1 l /\ taken_over h fos2 fts2 l).
Proof.
  intros h ft1 fts1 fs1 ft2 fts2 fs2 y1 fos1 ops1 inv1 y2 fos2 ops2 inv2 ks1 ks2 h1 h2 r1 r2 C F1 F2 V1 V2 E1 E2 l.
  pose proof (C95_generated _ _ _ _ _ _ _ _ ks1 C F1 V1) as G1. rewrite E1 in G1. pose proof (generated _ _ _ _ _ _ _ _ ks1 C F1 V1) as G1'. rewrite E1 in G1'.
  destruct (let! i := _ in _) as [c1|e']; [|contradiction]. destruct G1 as (U1 & C1 & I1).
  assert (W1 : valid h1 r1).
  { destruct G1' as (hm & x & i & la & ts & iv & ov & S & _ & Ea). destruct (applied _ _ _ _ _ _ _ _ _ _ _ _ _ (st_closed _ _ _ _ _ _ _ _ _ _ _ _ _ S) (st_info _ _ _ _ _ _ _ _ _ _ _ _ _ S)
      (invocation_later _ _ _ _ _ _ (st_unchanged _ _ _ _ _ _ _ _ _ _ _ _ _ S) V1) Ea) as (_ & _ & W & _). exact W. }
  assert (F2' : list_is typer_is h1 ft2 fts2 fs2) by (eapply list_later; [exact U1| |exact F2]; intros; eapply typer_later; eauto).
  pose proof (invocation_later _ _ _ _ _ _ U1 V2) as V2'.
  pose proof (C95_generated _ _ _ _ _ _ _ _ ks2 C1 F2' V2') as G2. rewrite E2 in G2. destruct (let! i := _ in _) as [c2|e']; [|contradiction]. destruct G2 as (U2 & C2 & I2).
  pose proof (C95_old_objects _ _ _ _ _ _ _ _ _ _ _ C F1 V1 E1) as R1. pose proof (C95_old_objects _ _ _ _ _ _ _ _ _ _ _ C1 F2' V2' E2) as R2.
  pose proof (taken_same h h1 ft2 fts2 fs2 y2 fos2 ops2 inv2 l C U1 F2 V2) as Sm. rewrite (reaches_same h1 h2) by auto. split.
  - intros (A & B). pose proof (reaches_bound _ _ _ A) as L. apply R2 in B; [|exact L]. apply Sm in B. split; [|exact B]. apply R1; [|exact A]. eapply taken_bound; eauto.
  - intros (A & B). pose proof (taken_bound _ _ _ _ A) as L. pose proof (unchanged_length _ _ U1). split; [now apply R1|]. apply R2; [lia|]. now apply Sm.
Qed.
Print Assumptions C95_two_generators.

(** ** Operands that no calls can separate *)
Lemma at_middle w n p q : 0 < p -> S p < n -> 0 < q -> S q < n -> (at_place w n p <-> at_place w n q).
Proof. unfold at_place. destruct w; lia. Qed.
Lemma together_middle ks n p q : 0 < p -> S p < n -> 0 < q -> S q < n -> together ks n p q.
Proof.
  intros P1 P2 Q1 Q2. induction ks as [|k ks IH] using rev_ind; [right; intros k t []|].
  assert (M : touches k n p <-> touches k n q).
  { split; intros (t & (w & N & A) & D); exists t; (split; [|exact D]); exists w; (split; [exact N|]); revert A; now apply (at_middle w n). }
  destruct (touches_dec k n p) as [T|T].
  - apply together_both; [exact T|now apply M].
  - apply together_none; [exact T|intros T'; now apply T, M|exact IH].
Qed.
(** Whatever calls are made, the operands that are neither the first nor the last have one access
    between them, so that one cannot be given a kind of access of its own. *)
Theorem C95_independent_refuted : forall h ft fts fs y fos ops inv ks h' r fos' ops' p q v w ev ew, closed h -> list_is typer_is h ft fts fs -> invocation_is h y fos ops inv ->
  generate_h ft y ks h = (h', Ok r) -> result_lists h' r fos' ops' -> nth_error ops' p = Some v -> nth_error ops' q = Some w ->
  view_val h' v = Some (PRes ev) -> view_val h' w = Some (PRes ew) ->
  0 < p -> S p < length (operand_list inv) -> 0 < q -> S q < length (operand_list inv) ->
  res_access ev = res_access ew /\ forall k, exists h2 held, client h' [v] h2 held /\ view_val h2 w = Some (PRes (mkRes (res_el ew) k)).
Proof.
  intros h ft fts fs y fos ops inv ks h' r fos' ops' p q v w ev ew C F V E RL P Q Vv Vw P1 P2 Q1 Q2. split.
  - destruct (C95_access _ _ _ _ _ _ _ _ _ _ _ _ _ C F V E RL) as (_ & A). destruct (proj1 (A p v P) (ex_intro _ ev Vv)) as (a & Ha & _).
    destruct (proj1 (A q w Q) (ex_intro _ ew Vw)) as (b & Hb & _).
    pose proof (proj2 (C95_shared_iff _ _ _ _ _ _ _ _ _ _ _ _ _ p q v w _ _ C F V E RL P Q Ha Hb) (together_middle ks _ p q P1 P2 Q1 Q2)) as Eq. injection Eq as <-.
    destruct (access_view _ _ _ _ Ha Vv) as (e1 & k1 & [= ->] & K1 & _). destruct (access_view _ _ _ _ Hb Vw) as (e2 & k2 & [= ->] & K2 & _). cbn. congruence.
  - eapply C95_client_iff; eauto. now apply together_middle.
Qed.
Print Assumptions C95_independent_refuted.

(** ** Cases *)
(** [sort -q -f pat a b c d] for a made-up generator *)
Definition share_heap : heap :=
  [OInst "AccessKind" [("kind", HAccess CONFIG_INPUT)]; typer_obj "filestd" (HRef 0); typer_obj "str" HNone; OList [HRef 2; HRef 1];
   OInst "Flag" [("flag_name", HStr "-q")]; OInst "Option" [("option_name", HStr "-f"); ("option_arg", HStr "pat")]; OList [HRef 4; HRef 5];
   OInst "Operand" [("name", HStr "a")]; OInst "Operand" [("name", HStr "b")]; OInst "Operand" [("name", HStr "c")]; OInst "Operand" [("name", HStr "d")];
   OList [HRef 7; HRef 8; HRef 9; HRef 10];
   OInst "CommandInvocationInitial" [("cmd_name", HStr "sort"); ("flag_option_list", HRef 6); ("operand_list", HRef 11)]].
Definition share_inv : invocation := mkInv "sort" [Flag "-q"; Option_ "-f" "pat"] ["a"; "b"; "c"; "d"].
Definition share_calls : list io_helper := [Stdout true; AllOtherIn; FirstConfigFile; LastStreamOut].
Lemma share_heap_closed : closed share_heap.
Proof.
  intros o J. apply Forall_forall. intros v Jv. cbn in J.
  repeat (destruct J as [<-|J]; [cbn in Jv; repeat (destruct Jv as [<-|Jv]; [cbn; auto; lia|]); contradiction|]). contradiction.
Qed.
Lemma share_heap_typers : list_is typer_is share_heap (HRef 3) [HRef 2; HRef 1] [PLAINSTRING; FILESTD CONFIG_INPUT].
Proof. eexists. split; [reflexivity|]. split; [reflexivity|]. repeat constructor; typer_case. Qed.
Lemma share_heap_inv : invocation_is share_heap (HRef 12) [HRef 4; HRef 5] [HRef 7; HRef 8; HRef 9; HRef 10] share_inv.
Proof.
  exists 12, (HRef 6), (HRef 11). split; [reflexivity|]. split; [reflexivity|]. split;
    (eexists; split; [reflexivity|]; split; [reflexivity|]); repeat constructor; eexists; split; reflexivity.
Qed.
Ltac has_access_case := eexists _, _, _; split; [reflexivity|]; split; [|vm_compute; reflexivity]; cbn; auto.
Example C95_case_generated : exists h' r f0 f1 v0 v1 v2 v3, generate_h (HRef 3) (HRef 12) share_calls share_heap = (h', Ok r) /\ result_lists h' r [f0; f1] [v0; v1; v2; v3] /\
  view_val h' v0 = Some (PRes (mkRes (FileName "a") CONFIG_INPUT)) /\ view_val h' v1 = Some (PRes (mkRes (FileName "b") OTHER_INPUT)) /\
  view_val h' v2 = Some (PRes (mkRes (FileName "c") OTHER_INPUT)) /\ view_val h' v3 = Some (PRes (mkRes (FileName "d") STREAM_OUTPUT)) /\
  together share_calls 4 1 2 /\ ~ together share_calls 4 0 1 /\ ~ together share_calls 4 0 3 /\
  (forall k, exists h2 held, client h' [v1] h2 held /\ view_val h2 v2 = Some (PRes (mkRes (FileName "c") k))) /\
  (forall h2 held, client h' [v1] h2 held -> view_val h2 v0 = Some (PRes (mkRes (FileName "a") CONFIG_INPUT))) /\
  reaches h' r 0 /\ reaches h' r 4 /\ ~ reaches h' r 12.
Proof.
  destruct (generate_h (HRef 3) (HRef 12) share_calls share_heap) as (h' & [r|e]) eqn:E; [|vm_compute in E; discriminate].
  pose proof E as E'. vm_compute in E'. injection E' as Eh Er.
  eexists h', r, _, _, _, _, _, _. split; [reflexivity|].
  assert (RL : result_lists h' r [HRef 4; HRef 29] [HRef 32; HRef 34; HRef 36; HRef 38]) by (subst h' r; eexists _, _, _, _; repeat (split; [vm_compute; reflexivity|]); vm_compute; reflexivity).
  split; [exact RL|].
  assert (V0 : view_val h' (HRef 32) = Some (PRes (mkRes (FileName "a") CONFIG_INPUT))) by (subst h'; vm_compute; reflexivity).
  assert (V1 : view_val h' (HRef 34) = Some (PRes (mkRes (FileName "b") OTHER_INPUT))) by (subst h'; vm_compute; reflexivity).
  assert (V2 : view_val h' (HRef 36) = Some (PRes (mkRes (FileName "c") OTHER_INPUT))) by (subst h'; vm_compute; reflexivity).
  assert (V3 : view_val h' (HRef 38) = Some (PRes (mkRes (FileName "d") STREAM_OUTPUT))) by (subst h'; vm_compute; reflexivity).
  split; [exact V0|]. split; [exact V1|]. split; [exact V2|]. split; [exact V3|].
  assert (T12 : together share_calls 4 1 2) by (apply together_middle; lia).
  pose proof (fun p q v w a b => C95_shared_iff _ _ _ _ _ _ _ _ _ _ _ _ _ p q v w a b share_heap_closed share_heap_typers share_heap_inv E RL) as Iff.
  assert (A0 : exists a0 a1 a3, has_access h' (HRef 32) a0 /\ has_access h' (HRef 34) a1 /\ has_access h' (HRef 38) a3 /\ a0 <> a1 /\ a0 <> a3 /\ a1 <> a0).
  { subst h'. eexists _, _, _. split; [has_access_case|]. split; [has_access_case|]. split; [has_access_case|]. repeat split; discriminate. }
  destruct A0 as (a0 & a1 & a3 & H0 & H1 & H3 & N01 & N03 & N10).
  assert (T01 : ~ together share_calls 4 0 1) by (intros T; exact (N01 (proj2 (Iff 0 1 _ _ _ _ eq_refl eq_refl H0 H1) T))).
  assert (T10 : ~ together share_calls 4 1 0) by (intros T; exact (N10 (proj2 (Iff 1 0 _ _ _ _ eq_refl eq_refl H1 H0) T))).
  assert (T03 : ~ together share_calls 4 0 3) by (intros T; exact (N03 (proj2 (Iff 0 3 _ _ _ _ eq_refl eq_refl H0 H3) T))).
  split; [exact T12|]. split; [exact T01|]. split; [exact T03|].
  pose proof (fun p q v w ev ew => C95_client_iff _ _ _ _ _ _ _ _ _ _ _ _ _ p q v w ev ew share_heap_closed share_heap_typers share_heap_inv E RL) as Cl.
  split; [exact (proj1 (Cl 1 2 _ _ _ _ eq_refl eq_refl V1 V2) T12)|]. split; [exact (proj2 (Cl 1 0 _ _ _ _ eq_refl eq_refl V1 V0) T10)|].
  pose proof (C95_old_objects _ _ _ _ _ _ _ _ _ _ _ share_heap_closed share_heap_typers share_heap_inv E) as Old.
  split; [|split].
  - apply Old; [cbn; lia|]. exists (HRef 5), (HRef 1). split; [cbn; auto|]. right. split; [eexists _, _; split; reflexivity|]. exists 1, (HRef 0). split; [reflexivity|]. split; [reflexivity|]. constructor. cbn. lia.
  - apply Old; [cbn; lia|]. exists (HRef 4), (HRef 2). split; [cbn; auto|]. left. split; [eexists _, _; split; reflexivity|]. constructor. cbn. lia.
  - rewrite Old by (cbn; lia). intros (fo & t & J & X). cbn in J. destruct J as [J|[J|[]]]; injection J as <- <-; destruct X as [(Cs & R)|(Cs & k & r0 & Q & Q' & R)].
    + inversion R as [|l0 o v l' E0 Jv R']; subst. injection E0 as <-. cbn in Jv. destruct Jv as [<-|[]]. inversion R'.
    + injection Q as <-. discriminate.
    + inversion R as [|l0 o v l' E0 Jv R']; subst. injection E0 as <-. cbn in Jv. destruct Jv as [<-|[<-|[]]]; inversion R'.
    + injection Q as <-. injection Q' as <-. inversion R as [|l0 o v l' E0 Jv R']; subst. injection E0 as <-. cbn in Jv. destruct Jv as [<-|[]]. inversion R'.
Qed.
(** Two generators for one invocation share the flag, and the access of the option *)
Example C95_case_two : exists h1 h2 r1 r2, generate_h (HRef 3) (HRef 12) share_calls share_heap = (h1, Ok r1) /\ generate_h (HRef 3) (HRef 12) [] h1 = (h2, Ok r2) /\
  r1 <> r2 /\ reaches h2 r1 0 /\ reaches h2 r2 0 /\ forall l, reaches h2 r1 l -> reaches h2 r2 l -> l = 0 \/ l = 4.
Proof.
  destruct (generate_h (HRef 3) (HRef 12) share_calls share_heap) as (h1 & [r1|e]) eqn:E1; [|vm_compute in E1; discriminate].
  destruct (generate_h (HRef 3) (HRef 12) [] h1) as (h2 & [r2|e]) eqn:E2; [|vm_compute in E1; injection E1 as <- <-; vm_compute in E2; discriminate].
  exists h1, h2, r1, r2. split; [reflexivity|]. split; [exact E2|].
  pose proof (C95_two_generators _ _ _ _ _ _ _ _ _ _ _ _ _ _ _ share_calls [] h1 h2 r1 r2 share_heap_closed share_heap_typers share_heap_typers share_heap_inv share_heap_inv E1 E2) as T.
  assert (T0 : taken_over share_heap [HRef 4; HRef 5] [HRef 2; HRef 1] 0).
  { exists (HRef 5), (HRef 1). split; [cbn; auto|]. right. split; [eexists _, _; split; reflexivity|]. exists 1, (HRef 0). split; [reflexivity|]. split; [reflexivity|]. constructor. cbn. lia. }
  split; [vm_compute in E1; injection E1 as <- <-; vm_compute in E2; injection E2 as <- <-; discriminate|].
  destruct (proj2 (T 0) (conj T0 T0)) as (A & B). split; [exact A|]. split; [exact B|]. intros l X Y. destruct (proj1 (T l) (conj X Y)) as ((fo & t & J & Z) & _).
  cbn in J. destruct J as [J|[J|[]]]; injection J as <- <-; destruct Z as [(Cs & R)|(Cs & k & r0 & Q & Q' & R)].
  - inversion R as [|l0 o v l' E0 Jv R']; subst; [now right|]. injection E0 as <-. cbn in Jv. destruct Jv as [<-|[]]. inversion R'.
  - injection Q as <-. discriminate.
  - destruct Cs as (l0 & at0 & Q & Q'). injection Q as <-. discriminate.
  - injection Q as <-. injection Q' as <-. left. eapply access_reach; [|exact R]. reflexivity.
Qed.
(** No operands: the first one is asked for in vain, in both models *)
Example C95_case_raises : let h := [OList []; OInst "CommandInvocationInitial" [("cmd_name", HStr "sort"); ("flag_option_list", HRef 0); ("operand_list", HRef 0)]] in
  exists h', generate_h (HRef 0) (HRef 1) [AllOtherIn; FirstConfigFile] h = (h', Raise IndexError) /\ unchanged h h' /\
    call_ios (mkInv "sort" [] []) [AllOtherIn; FirstConfigFile] (new_io_info [] 0) = Raise IndexError.
Proof.
  intros h. eexists. split; [reflexivity|]. split; [|reflexivity]. intros l L. destruct l as [|[|l]]; [reflexivity|reflexivity|cbn in L; lia].
Qed.
