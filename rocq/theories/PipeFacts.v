(** * Facts about pipelines (for C76) *)
From Coq Require Import Lia.
Require Import Verif.PyBase Verif.JsonData Verif.Parser Verif.Access Verif.IOInfo Verif.IOVars
  Verif.Transformers Verif.ParaTypes Verif.ParaGen Verif.MapperAgg Verif.SpecLists Verif.SpecIO Verif.SpecVars Verif.SpecPara
  Verif.ParserFacts Verif.ParaProps Verif.ShippedData Verif.MapperFacts Verif.P_Para Verif.SpecSem Verif.SemFacts Verif.SemRun Verif.SemProps
  Verif.SemSystem Verif.P_Sem Verif.SpecSem2 Verif.SemProps2 Verif.SpecSem4 Verif.SemProps4 Verif.SpecSem6 Verif.P_Sem6 Verif.SpecPipe.

Lemma parts_nodup t : NoDup (plan_vars t) -> NoDup (parts t).
Proof.
  induction t as [x y seed|o seed ts IH] using plan_rect'; cbn; intros N; [inversion N; subst; repeat constructor; auto|].
  inversion N as [|? ? _ N']; subst. clear N. induction IH as [|t ts H _ IH]; cbn in *; [constructor|].
  destruct (nodup_app _ _ N') as (N1 & N2 & N3). apply NoDup_app_disj; auto.
  intros v I J. apply (N3 v); [now apply parts_in|]. apply in_flat_map in J as (u & J1 & J2). apply in_flat_map. exists u. split; [exact J1|now apply parts_in].
Qed.
Section Facts.
Context (B : behaviour) (dir : data_dir) (s : store).

Lemma out_words g seed x : reads_one (st_civ g) (st_in g) ->
  out B s g seed x = B seed (v_cmd (st_civ g)) (map (wflag_of (st_civ g) s) (v_flags (st_civ g))) (map (word_of (st_civ g) s) (v_ops (st_civ g))) [x].
Proof. intros R. apply put_run, R. Qed.
(** Another store that agrees on the variables of the original *)
Lemma run_agrees g seed x s' : reads_one (st_civ g) (st_in g) -> s' (st_in g) = x ->
  (forall v, In v (vars (st_civ g)) -> s' v = put (st_in g) x s v) -> run B seed (st_civ g) s' = out B s g seed x.
Proof.
  intros R E H. rewrite (out_words g seed x R), (run_original B seed _ _ s' R), E.
  destruct (words_only (st_civ g) (st_in g) s' s R) as (-> & ->); [|reflexivity].
  intros v I N. rewrite (H v I). unfold put. destruct (Z.eqb_spec v (st_in g)); [contradiction|reflexivity].
Qed.
Lemma in_reads g : reads_one (st_civ g) (st_in g) -> In (st_in g) (vars (st_civ g)).
Proof. intros (_ & K & _). exact (proj1 (proj1 (kept_in _ _ _ (st_in g) K) (or_introl eq_refl))). Qed.

Lemma seq_total l : forall x, exists z, sequential B s l x z.
Proof.
  induction l as [|g l IH]; intros x; [exists x; constructor|]. destruct (IH (out B s g 0 x)) as (z & Z). exists z. now apply (seq_cons B s g l x z 0).
Qed.
Lemma seq_app l l' x y z : sequential B s l x y -> sequential B s l' y z -> sequential B s (l ++ l') x z.
Proof. induction 1 as [|g l x y seed S IH]; intros H; [exact H|]. cbn. apply (seq_cons B s g _ x z seed). auto. Qed.
Lemma seq_split l : forall l' x z, sequential B s (l ++ l') x z -> exists y, sequential B s l x y /\ sequential B s l' y z.
Proof.
  induction l as [|g l IH]; intros l' x z H; [exists x; split; [constructor|exact H]|]. inversion H as [|? ? ? ? seed S]; subst.
  destruct (IH _ _ _ S) as (y & S1 & S2). exists y. split; [now apply (seq_cons B s g l x y seed)|exact S2].
Qed.
Lemma within_head g l x : within B s (g :: l) x -> st_domain g x.
Proof. intros W. apply (W [] g l x eq_refl). constructor. Qed.
Lemma within_tail g l x seed : within B s (g :: l) x -> within B s l (out B s g seed x).
Proof. intros W front h rest y -> S. apply (W (g :: front) h rest y eq_refl). now apply (seq_cons B s g front x y seed). Qed.

(** A sound stage does the same in every run. *)
Lemma leaf_fresh c i : tight c -> exists v w, v <> w /\ v <> i /\ w <> i /\ forall seed, fresh_plan c (Leaf v w seed).
Proof.
  intros T. destruct (fresh_vars c i T) as (z & Z1 & Z2). exists z, (z + 1)%Z. split; [lia|]. split; [lia|]. split; [lia|]. intros seed. split.
  - cbn. repeat constructor; cbn; lia.
  - intros v I. apply Z2. cbn in I. lia.
Qed.
Lemma plain_step g x (seed : nat) : plain B dir g -> st_domain g x -> exists t s', fresh_plan (st_civ g) t /\ arity (st_arity g) t /\
    (forall v, ~ In v (plan_vars t) -> s' v = put (st_in g) x s v) /\
    distributes (p_splitter (st_par g)) x (map s' (parts t)) /\
    forall sd, evaluates B dir (st_par g) (st_civ g) s' t (out B s g sd x).
Proof.
  intros (R & T & NI & OK) D. destruct (leaf_fresh (st_civ g) (st_in g) T) as (v & w & N1 & N2 & N3 & F).
  exists (Leaf v w seed), (put v x (put (st_in g) x s)).
  assert (E : put v x (put (st_in g) x s) (st_in g) = x).
  { unfold put. destruct (Z.eqb_spec (st_in g) v); [reflexivity|]. now rewrite Z.eqb_refl. }
  assert (DI : distributes (p_splitter (st_par g)) x (map (put v x (put (st_in g) x s)) (parts (Leaf v w seed)))).
  { cbn [parts map]. replace (put v x (put (st_in g) x s) v) with x by (unfold put; now rewrite Z.eqb_refl).
    assert (CU : cut_at_lines x [x]) by (split; [cbn; now rewrite append_nil|constructor]).
    destruct (p_splitter (st_par g)) eqn:P; cbn; try exact CU; [now destruct NI|].
    rewrite app_nil_r. apply Permutation_refl. }
  split; [apply F|]. split; [exact I|]. split; [|split; [exact DI|]].
  - intros u H. unfold put at 1. destruct (Z.eqb_spec u v) as [->|]; [|reflexivity]. destruct H. now left.
  - intros sd. specialize (OK (put v x (put (st_in g) x s)) (Leaf v w seed) sd (F seed) I). rewrite E in OK. specialize (OK D DI).
    rewrite (run_agrees g sd x) in OK; [exact OK|exact R|exact E|].
    intros u J. unfold put at 1. destruct (Z.eqb_spec u v) as [->|]; [|reflexivity]. destruct (proj2 (F seed) v (or_introl eq_refl)) as (_ & K). contradiction.
Qed.
Lemma plain_one g x seed seed' : plain B dir g -> st_domain g x -> out B s g seed x = out B s g seed' x.
Proof.
  intros P D. destruct (plain_step g x 0 P D) as (t & s' & _ & _ & _ & _ & E). exact (evaluates_fun _ _ _ _ _ _ _ _ (E seed) (E seed')).
Qed.
Lemma seq_one l : Forall (plain B dir) l -> forall x z z', within B s l x -> sequential B s l x z -> sequential B s l x z' -> z = z'.
Proof.
  induction 1 as [|g l P _ IH]; intros x z z' W S S'; [inversion S; inversion S'; congruence|].
  inversion S as [|? ? ? ? sd H]; inversion S' as [|? ? ? ? sd' H']; subst. pose proof (within_tail g l x sd W) as W'.
  rewrite (plain_one g x sd' sd P (within_head _ _ _ W)) in H'. now apply (IH (out B s g sd x)).
Qed.

(** ** Stage by stage *)
Lemma staged_iff l : Forall (plain B dir) l -> forall x z, within B s l x -> (staged B dir s l x z <-> sequential B s l x z).
Proof.
  induction 1 as [|g l P _ IH]; intros x z W; [split; inversion 1; constructor|].
  pose proof (within_head _ _ _ W) as D. pose proof P as (R & T & NI & OK). split; intros H.
  - inversion H as [|? ? ? y ? t s' F A E DI EV ST]; subst.
    assert (Ei : s' (st_in g) = x).
    { rewrite E; [unfold put; now rewrite Z.eqb_refl|]. intros J. apply F in J as (_ & J). apply J, in_reads, R. }
    assert (Y : y = out B s g 0 x).
    { specialize (OK s' t 0 F A). rewrite Ei in OK. specialize (OK D DI). rewrite (run_agrees g 0 x s' R Ei) in OK; [exact (evaluates_fun _ _ _ _ _ _ _ _ EV OK)|].
      intros v J. apply E. intros K. apply F in K as (_ & K). contradiction. }
    subst y. apply (seq_cons B s g l x z 0). apply IH; [now apply within_tail|exact ST].
  - inversion H as [|? ? ? ? sd S]; subst. destruct (plain_step g x 0 P D) as (t & s' & F & A & E & DI & EV).
    apply (stg_cons B dir s g l x (out B s g sd x) z t s' F A E DI (EV sd)). apply IH; [now apply within_tail|exact S].
Qed.

(** ** Side by side *)
Definition mapped (g : stage) : Prop := p_mapper (st_par g) = seq_mapper /\ p_info_mapper_aggregator (st_par g) = 0.
Lemma branch_seq l : Forall (fun g => reads_one (st_civ g) (st_in g) /\ tight (st_civ g) /\ mapped g) l ->
  forall x z, branch B s l x z <-> sequential B s l x z.
Proof.
  induction 1 as [|g l (R & T & M1 & M2) _ IH]; intros x z; [split; inversion 1; constructor|]. split; intros H.
  - inversion H as [|? ? ? ? v w m sd F G W BR]; subst.
    destruct F as (ND & F). cbn in ND. inversion ND as [|? ? ND1 _]; subst.
    destruct (mapper_run (st_par g) (st_civ g) (st_in g) v w R M1 M2) as (m' & G' & _ & RM); [intros ->; apply ND1; now left|apply F; now left|apply F; right; now left|].
    assert (m' = m) by congruence. subst m'. apply (seq_cons B s g l x z sd). apply IH.
    replace (out B s g sd x) with (run B sd m (put v x s)); [exact BR|]. rewrite RM, (out_words g sd x R).
    unfold put at 3. rewrite Z.eqb_refl. destruct (words_only (st_civ g) (st_in g) (put v x s) s R) as (-> & ->); [|reflexivity].
    intros u J _. unfold put. destruct (Z.eqb_spec u v) as [->|]; [|reflexivity]. destruct (F v (or_introl eq_refl)). contradiction.
  - inversion H as [|? ? ? ? sd S]; subst. destruct (leaf_fresh (st_civ g) (st_in g) T) as (v & w & N1 & N2 & N3 & F).
    destruct (mapper_run (st_par g) (st_civ g) (st_in g) v w R M1 M2 N1 (proj2 (F sd) v (or_introl eq_refl)) (proj2 (F sd) w (or_intror (or_introl eq_refl)))) as (m & G & W & RM).
    apply (br_cons B s g l x z v w m sd (F sd) G W). apply IH.
    replace (run B sd m (put v x s)) with (out B s g sd x); [exact S|]. rewrite RM, (out_words g sd x R).
    unfold put at 3. rewrite Z.eqb_refl. destruct (words_only (st_civ g) (st_in g) (put v x s) s R) as (-> & ->); [|reflexivity].
    intros u J _. unfold put. destruct (Z.eqb_spec u v) as [->|]; [|reflexivity]. destruct (proj2 (F sd) v (or_introl eq_refl)). contradiction.
Qed.

Lemma concatenated_mapped g : concatenated B dir g -> mapped g.
Proof.
  intros ((dir0 & inv & O) & A & _). destruct (C68_concat_offered dir0 inv _ O A) as (I & _). split; destruct I as [<-|[<-|[]]]; reflexivity.
Qed.
Lemma concatenated_step g : concatenated B dir g -> is_cat B -> forall a b sd sd1 sd2, ends_line a -> st_domain g (a +++ b) ->
  out B s g sd (a +++ b) = out B s g sd1 a +++ out B s g sd2 b.
Proof.
  intros ((dir0 & inv & O) & A & (R & T & _ & OK) & E & TC) CB a b sd sd1 sd2 EA D. unfold sound in OK. rewrite E in OK.
  assert (P : piecewise B (st_civ g) (st_in g) (st_domain g)) by (eapply C68_concat_iff; eauto). exact (P s sd sd1 sd2 a b EA D).
Qed.
Lemma tail_domain (Q : string -> Prop) l : tail_closed Q -> forall l', l' <> [] -> Forall ends_line (removelast (l ++ l')) -> Q (joined (l ++ l')) -> Q (joined l').
Proof.
  intros TC. induction l as [|x l IH]; intros l' NE F H; [exact H|].
  assert (N : l ++ l' <> []) by (destruct l; cbn; [exact NE|discriminate]). cbn [app] in F. change (joined ((x :: l) ++ l')) with (x +++ joined (l ++ l')) in H.
  destruct (l ++ l') eqn:E; [now destruct N|]. rewrite <- E in *.
  assert (F' : Forall ends_line (x :: removelast (l ++ l'))) by (rewrite E in *; exact F). inversion F'; subst.
  apply IH; auto. eapply TC; eauto.
Qed.
Lemma concatenated_pieces g : concatenated B dir g -> is_cat B -> forall pieces sd, pieces <> [] -> Forall ends_line (removelast pieces) ->
  st_domain g (joined pieces) ->
  (forall x sd sd', In x pieces -> out B s g sd x = out B s g sd' x) /\
  (forall sds, length sds = length pieces -> out B s g sd (joined pieces) = joined (map (fun q => out B s g (fst q) (snd q)) (combine sds pieces))).
Proof.
  intros C CB pieces. pose proof C as (_ & _ & P & _ & TC). pose proof (concatenated_step g C CB) as H.
  induction pieces as [|x l IH]; intros sd NE F D; [now destruct NE|]. destruct l as [|y l].
  - cbn [joined fold_right] in *. rewrite append_nil in *. split.
    + intros x' sd0 sd' [<-|[]]. now apply (plain_one g x sd0 sd' P).
    + intros [|s0 [|]] L; try discriminate L. cbn. rewrite append_nil. now apply plain_one.
  - change (removelast (x :: y :: l)) with (x :: removelast (y :: l)) in F. inversion F as [|? ? EX F']; subst.
    change (joined (x :: y :: l)) with (x +++ joined (y :: l)) in *. destruct (IH sd) as (IH1 & IH2); [discriminate|exact F'|exact (TC _ _ EX D)|].
    split.
    + intros x' sd0 sd' [<-|J]; [|auto]. apply (append_cancel _ _ (out B s g 0 (joined (y :: l)))).
      now rewrite <- (H x (joined (y :: l)) 0 sd0 0 EX D), <- (H x (joined (y :: l)) 0 sd' 0 EX D).
    + intros [|s0 sds] L; [discriminate L|]. cbn [combine map fst snd]. rewrite (H x (joined (y :: l)) sd s0 sd EX D).
      change (joined (?a :: ?r)) with (a +++ joined r). f_equal. apply IH2. now injection L.
Qed.
Lemma removelast_map {A C} (f : A -> C) l : removelast (map f l) = map f (removelast l).
Proof. induction l as [|x [|y l] IH]; [reflexivity..|]. cbn [map removelast] in *. f_equal. exact IH. Qed.
Lemma front_cut front : Forall (concatenated B dir) front -> Forall (keeps_lines B s) front -> is_cat B ->
  forall x pieces ys, pieces <> [] -> cut_at_lines x pieces -> within B s front x -> Forall2 (sequential B s front) pieces ys ->
  exists y, sequential B s front x y /\ cut_at_lines y ys.
Proof.
  intros C K CB. revert K. induction C as [|g front C _ IH]; intros K x pieces ys NE (X & F) W S.
  - exists x. split; [constructor|]. replace ys with pieces; [now split|]. clear -S. induction S as [|a b l l' H _ IH]; [reflexivity|]. inversion H; subst. now f_equal.
  - inversion K as [|? ? K1 K2]; subst.
    pose proof (within_head _ _ _ W) as D.
    assert (M : Forall2 (sequential B s front) (map (out B s g 0) pieces) ys).
    { destruct (concatenated_pieces g C CB pieces 0 NE F D) as (O & _). clear -S O.
      induction S as [|a b l l' H _ IH]; [constructor|]. cbn. constructor.
      - inversion H as [|? ? ? ? sd Z]; subst. rewrite (O a 0 sd (or_introl eq_refl)). exact Z.
      - apply IH. intros x sd sd' I. apply O. now right. }
    assert (E : out B s g 0 (joined pieces) = joined (map (out B s g 0) pieces)).
    { destruct (concatenated_pieces g C CB pieces 0 NE F D) as (_ & O). rewrite (O (map (fun _ => 0) pieces)) by now rewrite map_length. f_equal.
      clear. induction pieces as [|a l IH]; [reflexivity|]. cbn. f_equal. exact IH. }
    assert (F2 : Forall ends_line (removelast (map (out B s g 0) pieces))).
    { rewrite removelast_map. apply Forall_map, Forall_forall. intros a I. rewrite Forall_forall in F.
      assert (Z : exists l1 l2, pieces = l1 ++ a :: l2 /\ l2 <> []).
      { clear -I. induction pieces as [|b [|c l] IH]; [destruct I..|]. change (removelast (b :: c :: l)) with (b :: removelast (c :: l)) in I.
        destruct I as [->|I]; [exists [], (c :: l); split; [reflexivity|discriminate]|].
        destruct (IH I) as (l1 & l2 & E & N). exists (b :: l1), l2. split; [cbn; now rewrite E|exact N]. }
      destruct Z as (l1 & l2 & Z & NZ). pose proof C as (_ & _ & _ & _ & TC). apply (K1 0 a (joined l2) (F a I)).
      change (a +++ joined l2) with (joined (a :: l2)). apply (tail_domain _ l1 TC); [discriminate|rewrite <- Z; now apply Forall_forall|now rewrite <- Z]. }
    destruct (IH K2 (out B s g 0 (joined pieces)) (map (out B s g 0) pieces) ys) as (y & Y1 & Y2).
    + now destruct pieces.
    + split; [exact E|exact F2].
    + now apply within_tail.
    + exact M.
    + exists y. split; [|exact Y2]. now apply (seq_cons B s g front _ y 0).
Qed.
Lemma within_front front rest x : within B s (front ++ rest) x -> within B s front x.
Proof. intros W f g r y -> S. apply (W f g (r ++ rest) y); [now rewrite <- app_assoc|exact S]. Qed.
Lemma fused_iff front g : Forall (concatenated B dir) front -> Forall (keeps_lines B s) front -> plain B dir g -> is_cat B ->
  forall t x pieces r, fresh_plan (st_civ g) t -> arity (st_arity g) t -> pieces <> [] -> length (parts t) = length pieces ->
  cut_at_lines x pieces -> within B s (front ++ [g]) x ->
  (fused B dir s front g t pieces r <-> sequential B s (front ++ [g]) x r).
Proof.
  intros C K P CB t x pieces r FR AR NE LP CU W.
  assert (MB : Forall (fun g => reads_one (st_civ g) (st_in g) /\ tight (st_civ g) /\ mapped g) front).
  { eapply Forall_impl; [|exact C]. intros h H. pose proof (concatenated_mapped h H) as M. destruct H as (_ & _ & (R & T & _) & _). auto. }
  assert (BS : forall l l', Forall2 (branch B s front) l l' <-> Forall2 (sequential B s front) l l').
  { intros l l'. split; induction 1; constructor; auto; now apply (branch_seq front MB). }
  pose proof P as (R & T & NI & OK).
  assert (PF : Forall (plain B dir) (front ++ [g])).
  { apply Forall_app. split; [|apply Forall_cons; [exact P|constructor]]. eapply Forall_impl; [|exact C]. intros h (_ & _ & H & _). exact H. }
  assert (MAIN : forall ys s', Forall2 (sequential B s front) pieces ys -> map s' (parts t) = ys ->
    (forall v, ~ In v (plan_vars t) -> s' v = put (st_in g) (joined ys) s v) ->
    evaluates B dir (st_par g) (st_civ g) s' t (out B s g 0 (joined ys)) /\ sequential B s (front ++ [g]) x (out B s g 0 (joined ys))).
  { intros ys s' S M E. destruct (front_cut front C K CB x pieces ys NE CU (within_front _ _ _ W) S) as (y & Y1 & Y2).
    pose proof (proj1 Y2) as Yj.
    assert (D : st_domain g (joined ys)) by (rewrite <- Yj; apply (W front g [] y); auto).
    assert (Ei : s' (st_in g) = joined ys).
    { rewrite E; [unfold put; now rewrite Z.eqb_refl|]. intros J. apply FR in J as (_ & J). apply J, in_reads, R. }
    split.
    - specialize (OK s' t 0 FR AR). rewrite Ei in OK. rewrite <- (run_agrees g 0 (joined ys) s' R Ei).
      + apply OK; [exact D|]. rewrite M, <- Yj. destruct (p_splitter (st_par g)) eqn:SP; cbn; try exact Y2; [now destruct NI|].
        rewrite (cut_lines _ _ Y2). apply Permutation_refl.
      + intros v J. apply E. intros J'. apply FR in J' as (_ & J'). contradiction.
    - rewrite <- Yj. eapply seq_app; [exact Y1|]. apply (seq_cons B s g [] y _ 0). constructor. }
  split.
  - intros (ys & s' & S & M & E & EV). apply BS in S. destruct (MAIN ys s' S M E) as (EV' & Z). now rewrite (evaluates_fun _ _ _ _ _ _ _ _ EV EV').
  - intros S.
    assert (Z : exists ys, Forall2 (sequential B s front) pieces ys).
    { clear. induction pieces as [|a l (ys & IH)]; [exists []; constructor|]. destruct (seq_total front a) as (y & Y). exists (y :: ys). now constructor. }
    destruct Z as (ys & Z). assert (LZ : length pieces = length ys) by (clear -Z; induction Z; cbn; congruence).
    set (s' := connect (parts t) ys (put (st_in g) (joined ys) s)).
    assert (M : map s' (parts t) = ys).
    { apply connect_in; [|congruence]. apply parts_nodup, FR. }
    assert (E : forall v, ~ In v (plan_vars t) -> s' v = put (st_in g) (joined ys) s v).
    { intros v N. apply connect_out. intros J. apply N. now apply parts_in. }
    destruct (MAIN ys s' Z M E) as (EV & SQ). rewrite (seq_one (front ++ [g]) PF x r _ W S SQ).
    exists ys, s'. split; [now apply BS|]. auto.
Qed.
End Facts.

(** ** Ends of lines *)
Lemma unlines_ends l : ends_line (unlines l).
Proof. exact (terminated_ends newline l). Qed.
Lemma app_ends a b : ends_line a -> ends_line b -> ends_line (a +++ b).
Proof.
  intros HA [->|(t & ->)]; [now rewrite append_nil|]. right. exists (a +++ t). now rewrite append_assoc.
Qed.
Lemma grep_prints text inv p c v B o :
  parse shipped_dir text = Ok inv -> cmd_name inv = "grep" -> offered shipped_dir inv p ->
  invocation_of inv c -> reads_one c v -> ~ uses_any inv grep_unsafe -> is_grep o B ->
  forall s, exists F, forall sd x, is_text x \/ uses inv "-a" ->
    B sd (v_cmd c) (map (wflag_of c s) (v_flags c)) (map (word_of c s) (v_ops c)) [x] = unlines (flat_map F (lines x)).
Proof.
  intros PA C OF IN R U GB.
  assert (X : ~ uses inv "-q" /\ ~ uses_any inv ["-L"; "-l"; "-c"; "-n"; "-b"]).
  { destruct OF as (i & k & ls & i' & l & G & CA & IL & I). apply (C28_only_sort shipped_dir inv i k ls i' l G) in CA as ->; auto.
    2: { rewrite C. intros [E|[E|[]]]; discriminate. }
    assert (A : annotated shipped_dir inv (Some (parallelizer_list i, is_commutative i))) by (apply C25_exact; now rewrite G).
    destruct (C32_grep_iff _ _ _ _ C A) as (H & _). assert (NE : parallelizer_list i <> []) by (intros E; now rewrite E in I).
    apply H in NE as (Q1 & [Q2|Q2]); auto. exfalso. revert Q2. eapply unused_sub; [exact U|]. intros y; cbn; tauto. }
  destruct X as (X1 & X2).
  intros s. assert (CN : v_cmd c = "grep") by (destruct IN as (-> & _); exact C).
  set (fl := map (wflag_of c s) (v_flags c)). set (ops := map (word_of c s) (v_ops c)).
  assert (GU : forall l, incl l grep_unsafe -> given fl l = false).
  { intros l I. apply (given_unused inv); [exact IN|]. now apply (unused_sub inv grep_unsafe). }
  assert (GX : forall n, In n ["-L"; "-l"; "-c"; "-n"; "-b"] -> given fl [n] = false).
  { intros n I. apply (given_unused inv); [exact IN|]. eapply unused_sub; [exact X2|]. intros y [<-|[]]. exact I. }
  assert (GQ : given fl ["-q"] = false).
  { apply (given_unused inv); [exact IN|]. intros (n & [<-|[]] & Z). contradiction. }
  assert (SM : forall l, existsb (fun n => negb (mem n grep_unsafe)) l = false -> given fl l = false).
  { intros l E. apply GU. intros n I. apply mem_In. apply not_false_iff_true. intros Z.
    assert (existsb (fun n => negb (mem n grep_unsafe)) l = true) by (apply existsb_exists; exists n; rewrite Z; auto). congruence. }
  exists (fun x => if xorb (given fl ["-v"]) (grep_match o fl ops x) then grep_show o fl ops None None true x else []).
  intros sd x QX. rewrite CN. rewrite GB.
  - unfold grep_output. rewrite (SM ["--help"; "-V"]), (SM ["-z"]), GQ, (GX "-l"), (GX "-L"), (GX "-c"), (GX "-n"), (GX "-b") by (reflexivity || cbn; auto 10).
    unfold after, before. rewrite !last_number_none by (apply SM; reflexivity). cbn [or_number Nat.add Nat.eqb].
    rewrite at_most_none. unfold unlines, lines. f_equal.
    apply (print_plain _ (fun x => xorb (given fl ["-v"]) (grep_match o fl ops x)) _ []).
  - eapply parse_known; eauto; [rewrite C; left; vm_compute; reflexivity|vm_compute; reflexivity].
  - apply SM; reflexivity.
  - destruct QX as [QX|QX]; [now left|right]. apply given_iff. exists "-a". split; [now left|]. unfold fl. rewrite (names_eq inv c s IN). now apply uses_in.
Qed.
Lemma line_ends t r : ends_line r -> ends_line (t +++ String newline r).
Proof.
  intros H. change (String newline r) with (String newline "" +++ r). rewrite <- append_assoc. apply app_ends; [right; now exists t|exact H].
Qed.
Lemma written_ends l : ends_line (SpecSem2.written newline true l).
Proof.
  induction l as [|[t|t] l IH]; [now left| |exact (line_ends t _ IH)].
  destruct l as [|q l]; [right; now exists t|exact (line_ends t _ IH)].
Qed.
Lemma sed_ends o fl sc a : given fl ["-z"] = false -> given fl ["--help"; "--version"] = false -> ends_line a -> ends_line (sed_output o fl sc a).
Proof.
  intros Z G EA. unfold sed_output. rewrite G. assert (SS : sed_sep fl = newline) by (unfold sed_sep; now rewrite Z). rewrite SS.
  assert (E : is_ended newline a = true) by (destruct EA as [->|(t & ->)]; [reflexivity|apply ended_end]). rewrite E.
  generalize (records newline a). clear -SS. intros l. generalize 1 as n, "" as h. induction l as [|x l IH]; intros n h; [now left|]. cbn [sed_lines].
  destruct (sed_cycle o fl n (match l with [] => true | _ => false end) sc x h) as ((w & h') & q). rewrite SS, orb_true_r.
  apply app_ends; [apply written_ends|]. destruct q; [now left|apply IH].
Qed.
Lemma squeeze_ends q t : forall last, (squeeze_from last q (t +++ String newline "") = "" /\ last = Some newline) \/
  exists u, squeeze_from last q (t +++ String newline "") = u +++ String newline "".
Proof.
  induction t as [|a t IH]; intros last; cbn [String.append squeeze_from].
  - destruct (q newline && match last with Some b => Ascii.eqb newline b | None => false end) eqn:E; [|right; now exists ""].
    left. split; [reflexivity|]. apply andb_true_iff in E as (_ & E). destruct last as [b|]; [|discriminate]. apply Ascii.eqb_eq in E. now subst.
  - destruct (q a && match last with Some b => Ascii.eqb a b | None => false end); [apply IH|]. right.
    destruct (IH (Some a)) as [(E & A)|(u & E)]; rewrite E; [injection A as ->; now exists ""|now exists (String a u)].
Qed.
Lemma not_ends a : a <> newline -> ~ ends_line (String a "").
Proof.
  intros N [E|([|x t] & E)]; [discriminate|injection E as E; contradiction|]. injection E as -> E. destruct t; discriminate.
Qed.
Lemma keep_end p t : keep_chars p (t +++ String newline "") = keep_chars p t +++ (if p newline then String newline "" else "").
Proof. rewrite keep_app. cbn. now destruct (p newline). Qed.
Lemma all_newlines f p t : (forall a, p a = true -> f a = newline) -> exists n, map_chars f (keep_chars p t) = string_of_list_ascii (repeat newline n).
Proof.
  intros H. induction t as [|a t (n & IH)]; [now exists 0|]. cbn. destruct (p a) eqn:E; [|now exists n].
  exists (S n). cbn. now rewrite IH, H.
Qed.
Lemma squeeze_newlines q n : forall last, exists m, squeeze_from last q (string_of_list_ascii (repeat newline n)) = string_of_list_ascii (repeat newline m).
Proof.
  induction n as [|n IH]; intros last; [now exists 0|]. cbn [repeat string_of_list_ascii squeeze_from].
  destruct (q newline && match last with Some b => Ascii.eqb newline b | None => false end); [apply IH|].
  destruct (IH (Some newline)) as (m & E). exists (S m). now rewrite E.
Qed.
Lemma newlines_end n : ends_line (string_of_list_ascii (repeat newline n)).
Proof.
  induction n as [|n IH]; [now left|]. change (ends_line (String newline "" +++ string_of_list_ascii (repeat newline n))). apply app_ends; [right; now exists ""|exact IH].
Qed.
Lemma tr_keeps_ends o fl ops : given fl ["--help"; "--version"] = false ->
  (tr_keeps o fl ops <-> forall a, ends_line a -> ends_line (tr_output o fl ops a)).
Proof.
  intros G. unfold tr_output. rewrite G. split.
  - intros K a EA. destruct (tr_deletes o fl ops newline) eqn:DN.
    + destruct (all_newlines (tr_image o fl ops) (fun a => negb (tr_deletes o fl ops a)) a) as (n & E).
      { intros c H. apply negb_true_iff in H. apply K; auto. }
      rewrite E. unfold squeeze. destruct (squeeze_newlines (tr_squeezes o fl ops) n None) as (m & ->). apply newlines_end.
    + destruct EA as [->|(t & ->)]; [now left|]. rewrite keep_end. rewrite DN. cbn [negb]. rewrite map_chars_app. cbn [map_chars].
      rewrite (K newline DN (or_introl eq_refl)). destruct (squeeze_ends (tr_squeezes o fl ops) (map_chars (tr_image o fl ops) (keep_chars (fun a => negb (tr_deletes o fl ops a)) t)) None) as [(E & N)|(u & E)];
        [discriminate|]. right. now exists u.
  - intros H a DA DN. destruct (Ascii.eqb_spec (tr_image o fl ops a) newline) as [|N]; [assumption|exfalso].
    destruct (tr_deletes o fl ops newline) eqn:DD.
    + specialize (H (String a (String newline ""))). cbn [keep_chars] in H. rewrite DA, DD in H. cbn [negb map_chars squeeze squeeze_from] in H. rewrite andb_false_r in H.
      apply (not_ends _ N). apply H. right. now exists (String a "").
    + destruct DN as [->|]; [|discriminate]. specialize (H (String newline "")). cbn [keep_chars] in H. rewrite DA in H. cbn [negb map_chars squeeze squeeze_from] in H. rewrite andb_false_r in H.
      apply (not_ends _ N). apply H. right. now exists "".
Qed.
(** Lines counted across a cut that is not at the end of a line *)
Lemma records_some v : v <> "" -> records newline v <> [].
Proof.
  intros W. destruct v as [|x w]; [now destruct W|]. cbn [records]. destruct (Ascii.eqb x newline); [discriminate|]. destruct (records newline w); discriminate.
Qed.
Lemma lines_glued u v : ~ ends_line u -> v <> "" -> S (length (lines (u +++ v))) = length (lines u) + length (lines v).
Proof.
  unfold lines. induction u as [|a u IH]; intros N NV; [destruct N; now left|]. cbn [String.append records].
  destruct u as [|b u].
  - destruct (Ascii.eqb_spec a newline) as [->|Na]; [destruct N; right; now exists ""|]. cbn [String.append records length].
    pose proof (records_some v NV). destruct (records newline v); [contradiction|reflexivity].
  - assert (N' : ~ ends_line (String b u)).
    { intros [E|(t & E)]; [discriminate|]. apply N. right. exists (String a t). rewrite E. reflexivity. }
    specialize (IH N' NV).
    pose proof (records_some (String b u +++ v) ltac:(discriminate)) as X1. pose proof (records_some (String b u) ltac:(discriminate)) as X2.
    destruct (records newline (String b u +++ v)) as [|r1 l1]; [now destruct X1|]. destruct (records newline (String b u)) as [|r2 l2]; [now destruct X2|].
    destruct (Ascii.eqb a newline); cbn [length] in *; lia.
Qed.
Lemma mapped_lines F x : (forall l, has_char newline l = false -> has_char newline (F l) = false) ->
  length (lines (unlines (map F (lines x)))) = length (lines x).
Proof.
  intros H. unfold lines at 1. unfold unlines. rewrite records_terminated, map_length; [reflexivity|]. apply Forall_map. eapply Forall_impl; [|apply records_clean].
  exact H.
Qed.
