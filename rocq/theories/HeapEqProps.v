(** * Equality of copies and of invocations *)
From Coq Require Import Lia ZArith.
Require Import Verif.PyBase Verif.Access Verif.IOInfo Verif.IOVars Verif.ParaTypes Verif.Heap Verif.HeapEq Verif.SpecHeap Verif.SpecHeapEq
  Verif.HeapFacts Verif.HeapCopy Verif.HeapEqFacts.

Lemma f2_length {A B} (R : A -> B -> Prop) l l' : Forall2 R l l' -> length l = length l'.
Proof. induction 1; cbn; congruence. Qed.

(** ** deepcopy keeps heaps proper *)
Definition proper_obj (o : obj) : Prop :=
  match o with OList _ => True | ODict l => NoDup (map fst l) | OInst _ l => NoDup (map fst l) end.
Lemma proper_forall h : proper h <-> Forall proper_obj h.
Proof. rewrite Forall_forall. reflexivity. Qed.
Lemma NoDup_combine {A} (l : list A) : NoDup l -> forall vs : list hval, NoDup (map fst (combine l vs)).
Proof.
  induction 1 as [|x l N H IH]; intros [|v vs]; cbn; constructor; auto. intros I. apply N. clear -I.
  revert vs I. induction l as [|y l IH]; intros [|v vs]; cbn; intuition eauto.
Qed.
Lemma refill_proper o vs : proper_obj o -> proper_obj (refill o vs).
Proof. destruct o; cbn; auto; intros; now apply NoDup_combine. Qed.
Lemma update_forall {A} (Q : A -> Prop) l n x : Forall Q l -> Q x -> Forall Q (update l n x).
Proof. intros F X. revert n. induction F as [|y l Y F IH]; intros [|n]; cbn; constructor; auto. Qed.
Lemma copy_proper : forall n v (st : cstate), Forall proper_obj (fst st) -> Forall proper_obj (fst (fst (copy_val n v st))).
Proof.
  assert (All : forall f : hval -> cstate -> cstate * option hval, (forall v (st : cstate), Forall proper_obj (fst st) -> Forall proper_obj (fst (fst (f v st)))) ->
     forall vs (st : cstate), Forall proper_obj (fst st) -> Forall proper_obj (fst (fst (copy_all f vs st)))).
  { intros f F. induction vs as [|v vs IH]; intros st H; cbn; [exact H|].
    specialize (F v st H). destruct (f v st) as (st' & [w|]); [|exact F]. cbn in F.
    specialize (IH st' F). destruct (copy_all f vs st') as (st'' & [ws|]); exact IH. }
  induction n as [|n IH]; intros v st H.
  - destruct v; try exact H. cbn [copy_val]. destruct (memo_get (snd st) l); exact H.
  - destruct v; try exact H. cbn [copy_val]. destruct (memo_get (snd st) l); [exact H|].
    destruct (nth_error (fst st) l) as [o|] eqn:E; [|exact H].
    assert (PO : proper_obj o) by (rewrite Forall_forall in H; apply H; eapply nth_error_In; eauto).
    specialize (All (copy_val n) IH (slots o) (fst st ++ [refill o []], (l, length (fst st)) :: snd st)).
    destruct (copy_all (copy_val n) (slots o) _) as ((h' & m') & [vs|]); cbn [fst] in *.
    + apply update_forall; [|now apply refill_proper]. apply All. apply Forall_app. split; [exact H|]. constructor; [|constructor]. now apply refill_proper.
    + apply All. apply Forall_app. split; [exact H|]. constructor; [|constructor]. now apply refill_proper.
Qed.
Lemma deepcopy_proper h v h' w : proper h -> deepcopy v h = (h', Ok w) -> proper h'.
Proof.
  rewrite !proper_forall. intros P E. unfold deepcopy in E. pose proof (copy_proper (S (length h)) v (h, []) P) as C.
  destruct (copy_val (S (length h)) v (h, [])) as ((h1 & m) & [x|]); [|discriminate]. injection E as <- <-. exact C.
Qed.
Lemma deepcopy_fresh h v : closed h -> valid h v ->
  exists h' m w, deepcopy v h = (h', Ok w) /\ unchanged h h' /\ val_rel m v w /\
    forall l l', memo_get m l = Some l' -> done h h' m l l' /\ length h <= l'.
Proof.
  intros C V. destruct (copy_val_copied h C (S (length h)) v (h, [])) as ((h' & m) & w & E & Cp & R).
  - apply unchanged_refl.
  - split; cbn; [constructor|contradiction].
  - auto.
  - cbn; lia.
  - exists h', m, w. unfold deepcopy. rewrite E. destruct Cp as (U & _ & _ & D). cbn [fst snd] in *.
    split; [auto|]. split; [auto|]. split; [auto|]. intros l l' El. destruct (D l l' El eq_refl) as (A & B). split; [auto|lia].
Qed.
Lemma grounded_unchanged h h' v : unchanged h h' -> grounded h v -> grounded h' v.
Proof.
  intros U. induction 1 as [v N|l o E G IH]; [now constructor|]. apply (gr_object h' l o); [|exact IH].
  rewrite U; [exact E|]. apply nth_error_Some. congruence.
Qed.

Section Copy.
  Context (h h' : heap) (m : memo) (P : proper h) (U : unchanged h h')
    (D : forall l l', memo_get m l = Some l' -> done h h' m l l' /\ length h <= l').
  Lemma proper_in l o : nth_error h l = Some o -> proper_obj o.
  Proof. intros E. apply nth_error_In in E. rewrite proper_forall, Forall_forall in P. auto. Qed.
  Lemma kept l o : nth_error h l = Some o -> nth_error h' l = Some o.
  Proof. intros E. rewrite U; [exact E|]. apply nth_error_Some. congruence. Qed.
  Lemma copy_same v : grounded h v -> ~ reaches_without_eq h v -> forall w, val_rel m v w -> same h' v w.
  Proof.
    induction 1 as [v N|l o E G IH]; intros R w V.
    - destruct v; cbn in V; subst; try constructor. exfalso. eapply N. reflexivity.
    - cbn in V. destruct (memo_get m l) as [l'|] eqn:M; [subst w|contradiction]. destruct (D _ _ M) as ((o' & vs & A & B & C) & _).
      rewrite E in A. injection A as <-. pose proof (kept l o E) as K. pose proof (proper_in l o E) as PO.
      assert (S : forall v, In v (slots o) -> forall w, val_rel m v w -> same h' v w).
      { intros v I. apply IH; [exact I|]. intros (x & c & at_ & RX & X & Y). apply R. exists x, c, at_. split; [|auto].
        eapply reaches_slot; eauto. }
      destruct o as [l0|l0|c l0]; cbn [slots refill] in *.
      + eapply same_list; [exact K|exact B|eapply f2_length; eauto|]. clear -C S. induction C as [|v w l1 l2 V C IH]; intros [|i] x y; cbn; try discriminate.
        * intros [= <-] [= <-]. apply S; [now left|exact V].
        * apply IH. intros z I. apply S. now right.
      + eapply same_dict; [exact K|exact B| |].
        * intros k. pose proof (assoc_z_combine m l0 k vs C) as T. destruct (assoc_z l0 k), (assoc_z (combine (map fst l0) vs) k); cbn in T; try contradiction; split; congruence.
        * intros k v w F F'. pose proof (assoc_z_combine m l0 k vs C) as T. rewrite F, F' in T. cbn [opt_rel] in T. apply S; [|exact T].
          apply assoc_z_in in F; [|exact PO]. apply (in_map snd) in F. exact F.
      + eapply same_instance; [exact K|exact B| | |].
        * intros I. apply R. exists l, c, l0. split; [|auto]. constructor. apply nth_error_Some. congruence.
        * intros k. pose proof (assoc_s_combine m l0 k vs C) as T. destruct (assoc_s l0 k), (assoc_s (combine (map fst l0) vs) k); cbn in T; try contradiction; split; congruence.
        * intros k v w F F'. pose proof (assoc_s_combine m l0 k vs C) as T. rewrite F, F' in T. cbn [opt_rel] in T. apply S; [|exact T].
          apply assoc_s_in in F; [|exact PO]. apply (in_map snd) in F. exact F.
  Qed.
  Lemma in_assoc_z l v : NoDup (map fst l) -> In v (map snd l) -> exists k, assoc_z l k = Some v.
  Proof. intros N I. apply in_map_iff in I as ((k & v') & <- & I). exists k. now apply assoc_z_in. Qed.
  Lemma in_assoc_s l v : NoDup (map fst l) -> In v (map snd l) -> exists k, assoc_s l k = Some v.
  Proof. intros N I. apply in_map_iff in I as ((k & v') & <- & I). exists k. now apply assoc_s_in. Qed.
  Lemma copy_not_same v x : reaches h v x -> forall c attrs, nth_error h x = Some (OInst c attrs) -> In c by_identity ->
    forall w, val_rel m v w -> ~ same h' v w.
  Proof.
    induction 1 as [l L|l o v x E I R IH]; intros c attrs X W w V S.
    - cbn in V. destruct (memo_get m l) as [l'|] eqn:M; [subst w|contradiction]. destruct (D _ _ M) as (_ & F). apply kept in X.
      inversion S as [|a b l1 l2 A1 B1 LL S1|a b l1 l2 A1 B1 KK S1|a b c1 l1 l2 A1 B1 NN KK S1]; subst; [lia|..]; rewrite X in A1; try discriminate.
      injection A1 as <- <-. contradiction.
    - cbn in V. destruct (memo_get m l) as [l'|] eqn:M; [subst w|contradiction]. destruct (D _ _ M) as ((o' & vs & A & B & C) & F).
      assert (L : l < length h) by (apply nth_error_Some; congruence).
      rewrite E in A. injection A as <-. pose proof (kept l o E) as K. pose proof (proper_in l o E) as PO.
      inversion S as [|a b l1 l2 A1 B1 LL S1|a b l1 l2 A1 B1 KK S1|a b c1 l1 l2 A1 B1 NN KK S1]; subst; [lia|..];
        rewrite K in A1; injection A1 as ->; rewrite B in B1; injection B1 as <-; cbn [slots] in *.
      + apply In_nth_error in I as (i & Ii). assert (exists w, nth_error vs i = Some w /\ val_rel m v w) as (w & Iw & Vw).
        { clear -C Ii. revert i Ii. induction C as [|a b l1 l2 V C IH]; intros [|i]; cbn; try discriminate; [|auto].
          intros [= <-]. eauto. }
        eapply (IH c attrs X W w Vw). eapply S1; eauto.
      + destruct (in_assoc_z l1 v PO I) as (k & Fk). pose proof (assoc_z_combine m l1 k vs C) as T. rewrite Fk in T.
        destruct (assoc_z (combine (map fst l1) vs) k) as [w|] eqn:Fw; [|contradiction]. eapply (IH c attrs X W w T). eapply S1; eauto.
      + destruct (in_assoc_s l1 v PO I) as (k & Fk). pose proof (assoc_s_combine m l1 k vs C) as T. rewrite Fk in T.
        destruct (assoc_s (combine (map fst l1) vs) k) as [w|] eqn:Fw; [|contradiction]. eapply (IH c attrs X W w T). eapply S1; eauto.
  Qed.
End Copy.

(** ** Equal objects stand for the same *)
Section Same.
  Context (h : heap).
  Lemma same_attr x y c n v : same h x y -> attr h x c n = Some v -> exists w, attr h y c n = Some w /\ same h v w.
  Proof.
    intros S. destruct S as [v0|a b l l' A B L S|a b l l' A B K S|a b c0 l l' A B N K S]; cbn [attr].
    - intros E. exists v. split; [exact E|constructor].
    - rewrite A. discriminate.
    - rewrite A. discriminate.
    - rewrite A, B. destruct (String.eqb c0 c); [|discriminate]. intros E. destruct (assoc_s l' n) as [w|] eqn:F; [eauto|]. apply K in F. congruence.
  Qed.
  Lemma same_atom v w : same h v w -> (forall l, v <> HRef l) -> w = v.
  Proof. intros S N. destruct S; try reflexivity; exfalso; eapply N; reflexivity. Qed.
  Lemma attr_intro l c n attrs v : nth_error h l = Some (OInst c attrs) -> assoc_s attrs n = Some v -> attr h (HRef l) c n = Some v.
  Proof. intros E F. cbn. now rewrite E, String.eqb_refl. Qed.
  Lemma same_access x y a : same h x y -> view_access h x = Some a -> view_access h y = Some a.
  Proof.
    intros S. unfold view_access. destruct (attr h x "AccessKind" "kind") as [v|] eqn:E; [|discriminate].
    destruct (same_attr _ _ _ _ _ S E) as (w & -> & V). destruct v; try discriminate. intros [= ->].
    now rewrite (same_atom _ _ V ltac:(discriminate)).
  Qed.
  Lemma same_ref a y : same h (HRef a) y -> exists b, y = HRef b.
  Proof. inversion 1; eauto. Qed.
  Lemma attr_form l c n v : attr h (HRef l) c n = Some v -> exists attrs, nth_error h l = Some (OInst c attrs) /\ assoc_s attrs n = Some v.
  Proof. apply attr_class. Qed.
  Lemma same_class a b c attrs : same h (HRef a) (HRef b) -> nth_error h a = Some (OInst c attrs) ->
    exists attrs', nth_error h b = Some (OInst c attrs') /\
      (forall k v, assoc_s attrs k = Some v -> exists w, assoc_s attrs' k = Some w /\ same h v w).
  Proof.
    intros S E. inversion S as [|? ? l l' A B L S1|? ? l l' A B K S1|? ? c0 l l' A B N K S1]; subst; try congruence.
    - exists attrs. split; [exact E|]. intros k v F. exists v. split; [exact F|constructor].
    - rewrite E in A. injection A as <- <-. exists l'. split; [exact B|]. intros k v F.
      destruct (assoc_s l' k) as [w|] eqn:G; [eauto|]. apply K in G. congruence.
  Qed.
  Lemma same_val x y p : same h x y -> view_val h x = Some p -> view_val h y = Some p.
  Proof.
    intros S. rewrite !view_val_form. destruct 1 as [|v|l attrs s E F|l attrs s r a E F G A|l attrs s r a E F G A].
    - rewrite (same_atom _ _ S ltac:(discriminate)). constructor.
    - rewrite (same_atom _ _ S ltac:(discriminate)). constructor.
    - destruct (same_ref _ _ S) as (b & ->). destruct (same_class _ _ _ _ S E) as (at' & E' & Q).
      destruct (Q _ _ F) as (w & F' & V). rewrite (same_atom _ _ V ltac:(discriminate)) in F'. econstructor; eauto.
    - destruct (same_ref _ _ S) as (b & ->). destruct (same_class _ _ _ _ S E) as (at' & E' & Q).
      destruct (Q _ _ F) as (w & F' & V). rewrite (same_atom _ _ V ltac:(discriminate)) in F'.
      destruct (Q _ _ G) as (u & G' & V'). econstructor; eauto. eapply same_access; eauto.
    - destruct (same_ref _ _ S) as (b & ->). destruct (same_class _ _ _ _ S E) as (at' & E' & Q).
      destruct (Q _ _ F) as (w & F' & V). rewrite (same_atom _ _ V ltac:(discriminate)) in F'.
      destruct (Q _ _ G) as (u & G' & V'). econstructor; eauto. eapply same_access; eauto.
  Qed.
  Lemma same_flag_el x y f : same h x y -> view_flag h x = Some f -> view_flag h y = Some f.
  Proof.
    intros S. rewrite !view_flag_form. destruct 1 as [l attrs n E F|l attrs n z p E F G V|l attrs n z p E F G V];
      destruct (same_ref _ _ S) as (b & ->); destruct (same_class _ _ _ _ S E) as (at' & E' & Q);
      destruct (Q _ _ F) as (w & F' & W); rewrite (same_atom _ _ W ltac:(discriminate)) in F'.
    - econstructor; eauto.
    - destruct (Q _ _ G) as (u & G' & V'). eapply ff_var; eauto. eapply same_val; eauto.
    - destruct (Q _ _ G) as (u & G' & V'). eapply ff_io; eauto. eapply same_val; eauto.
  Qed.
  Lemma same_views A (view : heap -> hval -> option A) x y l :
    (forall u v p, same h u v -> view h u = Some p -> view h v = Some p) -> same h x y -> views view h x l -> views view h y l.
  Proof.
    intros Vw S (a & vs & -> & E & F). inversion S as [|? b l1 l2 A1 B L S1|? b l1 l2 A1 B K S1|? b c0 l1 l2 A1 B N K S1]; subst; try congruence.
    - exists a, vs. auto.
    - rewrite E in A1. injection A1 as <-. exists b, l2. split; [reflexivity|]. split; [exact B|]. clear -Vw F L S1. revert l2 L S1.
      induction F as [|v p vs l V F IH]; intros [|w l2] L S1; try discriminate; constructor.
      + eapply Vw; [|exact V]. exact (S1 0 v w eq_refl eq_refl).
      + apply IH; [now injection L|]. intros i. exact (S1 (S i)).
  Qed.
  Lemma same_views_dict x y am : same h x y -> views_dict h x am -> views_dict h y am.
  Proof.
    intros S (a & es & -> & E & F). inversion S as [|? b l1 l2 A1 B L S1|? b l1 l2 A1 B K S1|? b c0 l1 l2 A1 B N K S1]; subst; try congruence.
    - exists a, es. auto.
    - rewrite E in A1. injection A1 as <-. exists b, l2. split; [reflexivity|]. split; [exact B|]. intros k. specialize (F k).
      destruct (assoc_z l2 k) as [w|] eqn:W.
      + destruct (assoc_z es k) as [v|] eqn:V; [|apply K in V; congruence]. destruct F as (acc & F1 & F2). exists acc. split; [|exact F2].
        eapply same_access; [|exact F1]. eapply S1; eauto.
      + apply K in W. now rewrite W in F.
  Qed.
  Lemma same_invocation x y c : same h x y -> views_invocation h x c -> views_invocation h y c.
  Proof.
    intros S (a & cls & attrs & fl & ol & i & o & am & -> & E & Cl & E1 & E2 & V2 & E3 & V3 & E4 & V4 & E5 & V5 & E6 & V6).
    destruct (same_ref _ _ S) as (b & ->). destruct (same_class _ _ _ _ S E) as (at' & E' & Q).
    destruct (Q _ _ E1) as (w1 & F1 & W1). rewrite (same_atom _ _ W1 ltac:(discriminate)) in F1.
    destruct (Q _ _ E2) as (w2 & F2 & W2). destruct (Q _ _ E3) as (w3 & F3 & W3). destruct (Q _ _ E4) as (w4 & F4 & W4).
    destruct (Q _ _ E5) as (w5 & F5 & W5). destruct (Q _ _ E6) as (w6 & F6 & W6).
    exists b, cls, at', w2, w3, w4, w5, w6. split; [reflexivity|]. split; [exact E'|]. split; [exact Cl|]. split; [exact F1|].
    split; [exact F2|]. split; [eapply same_views; eauto; apply same_flag_el|].
    split; [exact F3|]. split; [eapply same_views; eauto; apply same_val|].
    split; [exact F4|]. split; [eapply same_val; eauto|]. split; [exact F5|]. split; [eapply same_val; eauto|].
    split; [exact F6|]. eapply same_views_dict; eauto.
  Qed.

  (** ** Objects that stand for the same are equal *)
  Context (P : proper h) (AC : as_constructed h).
  Lemma as_built l c attrs names k : nth_error h l = Some (OInst c attrs) -> attributes c = Some names ->
    (assoc_s attrs k = None <-> ~ In k names).
  Proof.
    intros E A. apply nth_error_In in E. rewrite <- (AC _ _ _ E A k). rewrite (find_none assoc_s assoc_s_in); [reflexivity|]. exact (P _ E).
  Qed.
  Lemma equal_instances a b c attrs attrs' names : nth_error h a = Some (OInst c attrs) -> nth_error h b = Some (OInst c attrs') ->
    attributes c = Some names -> ~ In c by_identity ->
    (forall k v w, In k names -> assoc_s attrs k = Some v -> assoc_s attrs' k = Some w -> same h v w) -> same h (HRef a) (HRef b).
  Proof.
    intros E E' A N S. eapply same_instance; eauto.
    - intros k. rewrite (as_built _ _ _ _ k E A), (as_built _ _ _ _ k E' A). reflexivity.
    - intros k v w F F'. apply (S k); auto. destruct (in_dec string_dec k names) as [|X]; [assumption|].
      apply (as_built _ _ _ _ k E A) in X. congruence.
  Qed.
  Ltac not_listed := cbn; intuition discriminate.
  Lemma access_equal x y a : view_access h x = Some a -> view_access h y = Some a -> same h x y.
  Proof.
    unfold view_access. destruct (attr h x "AccessKind" "kind") as [v|] eqn:E; [|discriminate].
    destruct (attr h y "AccessKind" "kind") as [w|] eqn:E'; [|discriminate].
    destruct x as [| | | | | | |l]; try discriminate. destruct y as [| | | | | | |l']; try discriminate.
    apply attr_class in E as (at1 & E & F), E' as (at2 & E' & F'). destruct v; try discriminate. intros [= ->]. destruct w; try discriminate. intros [= ->].
    eapply equal_instances; [exact E|exact E'|reflexivity|not_listed|]. intros k v w [<-|[]] G G'. assert (v = w) as -> by congruence. constructor.
  Qed.
  Lemma val_equal x y p : view_val h x = Some p -> view_val h y = Some p -> same h x y.
  Proof.
    rewrite !view_val_form. intros X Y. destruct X as [|v|l attrs s E F|l attrs s r a E F G A|l attrs s r a E F G A]; inversion Y; subst; try constructor.
    - match goal with E' : nth_error h _ = Some (OInst "ArgStringType" ?b), F' : assoc_s ?b _ = _ |- same h _ (HRef ?l') => rename E' into E1; rename F' into F1 end.
      eapply equal_instances; [exact E|eassumption|reflexivity|not_listed|]. intros k v w [<-|[]] G G'. assert (v = w) as -> by congruence. constructor.
    - eapply equal_instances; [exact E|eassumption|reflexivity|not_listed|]. intros k v w [<-|[<-|[]]] G1 G2.
      + assert (v = w) as -> by congruence. constructor.
      + assert (v = r) as -> by congruence. eapply access_equal; [exact A|]. congruence.
    - eapply equal_instances; [exact E|eassumption|reflexivity|not_listed|]. intros k v w [<-|[<-|[]]] G1 G2.
      + assert (v = w) as -> by congruence. constructor.
      + assert (v = r) as -> by congruence. eapply access_equal; [exact A|]. congruence.
  Qed.
  Lemma flag_equal x y f : (forall n a, f <> FOptVar n a) -> view_flag h x = Some f -> view_flag h y = Some f -> same h x y.
  Proof.
    intros N. rewrite !view_flag_form. intros X Y. destruct X as [l attrs n E F|l attrs n z p E F G V|l attrs n z p E F G V]; [| now exfalso; eapply N|].
    - inversion Y; subst. eapply equal_instances; [exact E|eassumption|reflexivity|not_listed|]. intros k v w [<-|[]] G G'. assert (v = w) as -> by congruence. constructor.
    - inversion Y; subst. eapply equal_instances; [exact E|eassumption|reflexivity|not_listed|]. intros k v w [<-|[<-|[]]] G1 G2.
      + assert (v = w) as -> by congruence. constructor.
      + assert (v = z) as -> by congruence. eapply val_equal; [exact V|]. congruence.
  Qed.
  Lemma views_equal A (view : heap -> hval -> option A) x y l :
    (forall u v p, In p l -> view h u = Some p -> view h v = Some p -> same h u v) -> views view h x l -> views view h y l -> same h x y.
  Proof.
    intros Vw (a & vs & -> & E & F) (b & ws & -> & E' & F'). eapply same_list; [exact E|exact E'| |].
    - rewrite (f2_length _ _ _ F), (f2_length _ _ _ F'). reflexivity.
    - clear -Vw F F'. revert ws F'. induction F as [|v p vs l V F IH]; intros ws F'; inversion F' as [|w ? ws' ? W F'']; subst; intros [|i] x y; cbn; try discriminate.
      + intros [= <-] [= <-]. eapply Vw; [now left|eassumption..].
      + eapply IH; [|exact F'']. intros u v' p' I. apply Vw. now right.
  Qed.
  Lemma views_dict_equal x y m1 m2 : (forall k, m1 k = m2 k) -> views_dict h x m1 -> views_dict h y m2 -> same h x y.
  Proof.
    intros EQ (a & es & -> & E & F) (b & es' & -> & E' & F'). eapply same_dict; [exact E|exact E'| |].
    - intros k. specialize (F k). specialize (F' k). destruct (assoc_z es k), (assoc_z es' k); try (split; congruence);
        rewrite EQ in F; [destruct F as (acc & _ & F)|destruct F' as (acc & _ & F')]; congruence.
    - intros k v w G G'. specialize (F k). specialize (F' k). rewrite G in F. rewrite G' in F'. destruct F as (a1 & X & Y), F' as (a2 & X' & Y').
      eapply access_equal; [exact X|]. rewrite EQ in Y. congruence.
  Qed.
  Lemma invocations_equal x y cls c d : In cls ["CommandInvocationWithIOVars"; "Mapper"] -> class_is h x cls -> class_is h y cls ->
    views_invocation h x c -> views_invocation h y d -> (forall n a, ~ In (FOptVar n a) (v_flags c)) -> same_civ c d -> same h x y.
  Proof.
    intros CL (a0 & at0 & -> & CX) (b0 & at1 & -> & CY).
    intros (a & cls1 & attrs & fl & ol & i & o & am & X & E & Cl & E1 & E2 & V2 & E3 & V3 & E4 & V4 & E5 & V5 & E6 & V6).
    intros (b & cls2 & attrs' & fl' & ol' & i' & o' & am' & Y & F & Cl' & F1 & F2 & W2 & F3 & W3 & F4 & W4 & F5 & W5 & F6 & W6).
    intros NV (S1 & S2 & S3 & S4 & S5 & S6). injection X as <-. injection Y as <-. rewrite E in CX. injection CX as -> ->. rewrite F in CY. injection CY as -> ->.
    assert (A : attributes cls = Some ["cmd_name"; "flag_option_list"; "operand_list"; "implicit_use_of_streaming_input";
          "implicit_use_of_streaming_output"; "access_map"]) by (destruct CL as [<-|[<-|[]]]; reflexivity).
    eapply equal_instances; [exact E|exact F|exact A|destruct CL as [<-|[<-|[]]]; not_listed|].
    intros k v w K G G'. cbn in K. destruct K as [<-|[<-|[<-|[<-|[<-|[<-|[]]]]]]].
    - assert (v = w) as -> by congruence. constructor.
    - assert (v = fl) as -> by congruence. assert (w = fl') as -> by congruence. rewrite <- S2 in W2.
      eapply views_equal; [|exact V2|exact W2]. intros u u' p I. apply flag_equal. intros n z ->. now apply (NV n z).
    - assert (v = ol) as -> by congruence. assert (w = ol') as -> by congruence. rewrite <- S3 in W3.
      eapply views_equal; [|exact V3|exact W3]. intros u u' p I. apply val_equal.
    - assert (v = i) as -> by congruence. assert (w = i') as -> by congruence. eapply val_equal; [exact V4|]. congruence.
    - assert (v = o) as -> by congruence. assert (w = o') as -> by congruence. eapply val_equal; [exact V5|]. congruence.
    - assert (v = am) as -> by congruence. assert (w = am') as -> by congruence. eapply views_dict_equal; eauto.
  Qed.
  Lemma views_fun A (view : heap -> hval -> option A) x l l' : views view h x l -> views view h x l' -> l = l'.
  Proof.
    intros (a & vs & -> & E & F) (b & ws & X & E' & F'). injection X as <-. rewrite E in E'. injection E' as <-. clear -F F'. revert l' F'.
    induction F as [|v p vs l V F IH]; intros l' F'; inversion F' as [|? q ? l'' W F'']; subst; [reflexivity|]. rewrite V in W. injection W as <-. f_equal. auto.
  Qed.
  Lemma invocation_fun x c d : views_invocation h x c -> views_invocation h x d -> same_civ c d.
  Proof.
    intros (a & cls1 & attrs & fl & ol & i & o & am & X & E & Cl & E1 & E2 & V2 & E3 & V3 & E4 & V4 & E5 & V5 & E6 & V6).
    intros (b & cls2 & attrs' & fl' & ol' & i' & o' & am' & Y & F & Cl' & F1 & F2 & W2 & F3 & W3 & F4 & W4 & F5 & W5 & F6 & W6).
    rewrite X in Y. injection Y as <-. rewrite E in F. injection F as <- <-.
    rewrite E2 in F2; injection F2 as <-. rewrite E3 in F3; injection F3 as <-. rewrite E4 in F4; injection F4 as <-. rewrite E5 in F5; injection F5 as <-.
    rewrite E6 in F6; injection F6 as <-.
    split; [congruence|]. split; [eapply views_fun; eauto|]. split; [eapply views_fun; eauto|]. split; [congruence|]. split; [congruence|].
    destruct V6 as (u & es & -> & Eu & Fu), W6 as (u' & es' & Y & Eu' & Fu'). injection Y as <-. rewrite Eu in Eu'. injection Eu' as <-.
    intros k. specialize (Fu k). specialize (Fu' k). destruct (assoc_z es k); [|congruence]. destruct Fu as (? & ? & ?), Fu' as (? & ? & ?). congruence.
  Qed.
End Same.
