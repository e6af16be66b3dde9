(** * Proofs about sed with most of its commands *)
From Coq Require Import Lia.
Require Import Verif.PyBase Verif.JsonData Verif.Parser Verif.Access Verif.IOInfo Verif.IOVars
  Verif.Transformers Verif.ParaTypes Verif.ParaGen Verif.MapperAgg Verif.SpecLists Verif.SpecIO Verif.SpecVars Verif.SpecPara
  Verif.ParserFacts Verif.ParaProps Verif.ShippedData Verif.SpecSem Verif.SemFacts Verif.SemRun Verif.SemProps
  Verif.SpecSem2 Verif.SemProps2 Verif.SpecSem8.

Definition hold0 : item := ("", true).
Section Script.
Context (o : sed_meaning) (fl : list wflag) (sc : sed_script).

(** ** One cycle *)
Fixpoint cyc (e : bool) (n : nat) (st : sed_state) : option sed_state :=
  match n with
  | O => None
  | S n' => match sed_step o fl sc e st with Inside st' => cyc e n' st' | NextLine st' => Some st' | Stop _ => None end
  end.
Definition continues (e : bool) (st : sed_state) (l : list item) : Prop :=
  match starts e st with None => l = s_out st | Some st' => exists f, sed_run o fl sc e f st' = Some l end.
Definition never_stops : Prop := forall e st st', sed_step o fl sc e st <> Stop st'.
Lemma run_cyc e : never_stops -> forall f st l, sed_run o fl sc e f st = Some l -> exists n st', cyc e n st = Some st' /\ continues e st' l.
Proof.
  intros NS. induction f as [|f IH]; intros st l H; [discriminate|]. cbn [sed_run] in H. destruct (sed_step o fl sc e st) as [st'|st'|st'] eqn:E.
  - destruct (IH _ _ H) as (n & st'' & E' & C). exists (S n), st''. cbn [cyc]. rewrite E. auto.
  - exists 1, st'. cbn [cyc]. rewrite E. split; [reflexivity|]. unfold continues. destruct (starts e st') as [s''|]; [now exists f|]. now injection H.
  - now destruct (NS e st st').
Qed.
Lemma cyc_run e n : forall st st' l, cyc e n st = Some st' -> continues e st' l -> exists f, sed_run o fl sc e f st = Some l.
Proof.
  induction n as [|n IH]; intros st st' l H C; [discriminate|]. cbn [cyc] in H. destruct (sed_step o fl sc e st) as [s1|s1|s1] eqn:E; [| |discriminate].
  - destruct (IH _ _ _ H C) as (f & F). exists (S f). cbn [sed_run]. now rewrite E.
  - injection H as ->. unfold continues in C. destruct (starts e st') as [s''|] eqn:E'.
    + destruct C as (f & F). exists (S f). cbn [sed_run]. now rewrite E, E'.
    + exists 1. cbn [sed_run]. now rewrite E, E', C.
Qed.
Lemma cyc_more e n : forall m st st', cyc e n st = Some st' -> n <= m -> cyc e m st = Some st'.
Proof.
  induction n as [|n IH]; intros m st st' H L; [discriminate|]. destruct m as [|m]; [lia|]. cbn [cyc] in *.
  destruct (sed_step o fl sc e st); [|exact H|exact H]. apply IH; [exact H|lia].
Qed.
Lemma cyc_fun e n m st s1 s2 : cyc e n st = Some s1 -> cyc e m st = Some s2 -> s1 = s2.
Proof.
  intros A B. destruct (Nat.le_ge_cases n m) as [L|L].
  - rewrite (cyc_more e n m st s1 A L) in B. congruence.
  - rewrite (cyc_more e m n st s2 B L) in A. congruence.
Qed.

(** ** Two runs that differ in what the script does not look at
    [J]: what the hold space may be; [free]: where it does not matter *)
Context (J : item -> Prop) (free : nat -> Prop).
Context (OWN : forall l, In l sc -> own_where (l_where l) /\ own_action (l_action l))
  (J0 : J hold0)
  (F0 : forall h h', J h -> J h' -> h = h' \/ free 0)
  (FS : forall n l, nth_error sc n = Some l -> free n ->
     l = mkSedLine Everywhere false AHold \/ (free (S n) /\ forall m, In (l_action l) [ABranch m; ATest m; ATestNot m] -> free m))
  (FR : forall n l, nth_error sc n = Some l -> reads_hold (l_action l) -> ~ free n)
  (FW : forall l, In l sc -> writes_hold (l_action l) -> forall h, J h).
Definition sim (st st' : sed_state) : Prop :=
  s_pc st = s_pc st' /\ s_space st = s_space st' /\ s_ended st = s_ended st' /\ s_replaced st = s_replaced st' /\ s_queue st = s_queue st' /\
  s_open st = [] /\ s_open st' = [] /\ J (s_hold st) /\ J (s_hold st') /\ (s_hold st = s_hold st' \/ free (s_pc st)).
Definition adds (w : list item) (st t : sed_state) : Prop := s_rest t = s_rest st /\ s_out t = s_out st ++ w.
Definition ends_cycle (t : sed_state) : Prop := s_queue t = [] /\ s_open t = [] /\ J (s_hold t).
Lemma step_sim e e' st st' : sim st st' ->
  exists w, match sed_step o fl sc e st, sed_step o fl sc e' st' with
            | Inside t, Inside t' => sim t t' /\ adds w st t /\ adds w st' t'
            | NextLine t, NextLine t' => ends_cycle t /\ ends_cycle t' /\ adds w st t /\ adds w st' t'
            | _, _ => False
            end.
Proof.
  intros S. destruct st as [pc sp en h rp qu nu re op out], st' as [pc' sp' en' h' rp' qu' nu' re' op' out'].
  unfold sim in S. cbn in S. destruct S as (-> & -> & -> & -> & -> & -> & -> & J1 & J2 & HF).
  unfold sed_step. cbn [s_pc]. destruct (nth_error sc pc') as [[w ng k]|] eqn:E.
  2: { unfold shows. destruct (given fl ["-n"]); cbn; eexists; unfold ends_cycle, adds; cbn; repeat split; auto; rewrite <- ?app_assoc; reflexivity. }
  pose proof (nth_error_In _ _ E) as IN. destruct (OWN _ IN) as (OW & OA). cbn [l_where l_action l_negated] in *.
  assert (SEL : exists b, selects o fl w (mkSed pc' sp' en' h rp' qu' nu re [] out) = (b, []) /\ selects o fl w (mkSed pc' sp' en' h' rp' qu' nu' re' [] out') = (b, [])
                /\ (w = Everywhere -> b = true)).
  { destruct OW as [->|(r & ->)]; cbn; eexists; repeat split; discriminate. }
  destruct SEL as (b & -> & -> & SE). pose proof (FS _ _ E) as FS'. pose proof (FR _ _ E) as FR'. pose proof (FW _ IN) as FW'. cbn [l_action] in *.
  destruct (xorb b ng) eqn:X.
  2: { exists []. unfold sim, adds; cbn. rewrite !app_nil_r. repeat split; auto. destruct HF as [HF|HF]; [now left|right].
       destruct (FS' HF) as [FE|(FE & _)]; [|exact FE]. injection FE as -> -> _. rewrite SE in X by reflexivity. discriminate X. }
  assert (NX : k <> AHold -> h = h' \/ free (S pc')).
  { intros N. destruct HF as [HF|HF]; [now left|right]. destruct (FS' HF) as [FE|(FE & _)]; [|exact FE]. congruence. }
  assert (JM : forall m, In k [ABranch m; ATest m; ATestNot m] -> h = h' \/ free m).
  { intros m I. destruct HF as [HF|HF]; [now left|right]. destruct (FS' HF) as [FE|(_ & FE)]; [injection FE as -> -> ->; cbn in I; intuition discriminate|now apply FE]. }
  assert (HR : reads_hold k -> h = h') by (intros R; destruct HF as [HF|HF]; [exact HF|now destruct (FR' R)]).
  unfold own_action in OA.
  destruct k; try (exfalso; apply OA; cbn; tauto);
    cbn [acts s_space s_pc s_hold s_ended s_replaced s_queue s_number s_rest s_open s_out opens].
  all: try solve [eexists; unfold sim, adds, ends_cycle; cbn; repeat split; auto; try (apply NX; discriminate);
    try (apply FW'; cbn; tauto); try rewrite !app_nil_r; try rewrite <- !app_assoc; try reflexivity].
  { (* s *) destruct (m_subst o fl regex replacement flags sp') as (x & rep). destruct rep; cbn [andb].
    + destruct (has_char "p" flags); [exists [(x, en')]|exists []]; unfold sim, adds; cbn; rewrite ?app_nil_r; repeat split; auto; apply NX; discriminate.
    + exists []; unfold sim, adds; cbn; rewrite !app_nil_r; repeat split; auto; apply NX; discriminate. }
  { (* D *) destruct (snd (first_line sp')); eexists; unfold sim, adds, ends_cycle; cbn; repeat split; auto. }
  all: try (assert (HE : h = h') by (apply HR; cbn; tauto); subst h').
  all: try solve [eexists; unfold sim, adds; cbn; rewrite ?app_nil_r; repeat split; auto; apply FW'; cbn; tauto].
  { (* H *) exists []. unfold sim, adds; cbn. rewrite !app_nil_r. repeat split; auto; try (apply FW'; cbn; tauto).
    destruct NX as [->|NX]; [discriminate|now left|now right]. }
  { (* c *) eexists. unfold ends_cycle, adds; cbn. rewrite <- !app_assoc. repeat split; auto. }
  { (* b *) exists []. unfold sim, adds; cbn. rewrite !app_nil_r. repeat split; auto. apply JM; cbn; tauto. }
  { (* t *) exists []. destruct rp'; unfold sim, adds; cbn; rewrite !app_nil_r; repeat split; auto; first [apply JM; cbn; tauto|apply NX; discriminate]. }
  { (* T *) exists []. destruct rp'; unfold sim, adds; cbn; rewrite !app_nil_r; repeat split; auto; first [apply JM; cbn; tauto|apply NX; discriminate]. }
Qed.
Lemma step_never_stops : never_stops.
Proof.
  intros e st st' E. unfold sed_step in E. destruct (nth_error sc (s_pc st)) as [l|] eqn:EL; [|discriminate].
  destruct (OWN _ (nth_error_In _ _ EL)) as (_ & OA). destruct (selects o fl (l_where l) st) as (b, op). destruct (xorb b (l_negated l)); [|discriminate].
  unfold own_action in OA. destruct (l_action l); try (apply OA; cbn; tauto); cbn [acts] in E; try discriminate E.
  - destruct (m_subst o fl regex replacement flags (s_space (opens op st))); discriminate E.
  - destruct (snd (first_line (s_space (opens op st)))); discriminate E.
  - destruct (s_replaced (opens op st)); discriminate E.
  - destruct (s_replaced (opens op st)); discriminate E.
Qed.
Lemma cyc_sim e e' n : forall st st' t, sim st st' -> cyc e n st = Some t ->
  exists t' w, cyc e' n st' = Some t' /\ ends_cycle t /\ ends_cycle t' /\ adds w st t /\ adds w st' t'.
Proof.
  induction n as [|n IH]; intros st st' t S E; [discriminate|]. cbn [cyc] in *. destruct (step_sim e e' st st' S) as (w & SS).
  destruct (sed_step o fl sc e st) as [s1|s1|s1], (sed_step o fl sc e' st') as [s2|s2|s2]; try contradiction.
  - destruct SS as (S1 & (A1 & A2) & (A3 & A4)). destruct (IH _ _ _ S1 E) as (t' & w' & E' & C1 & C2 & (B1 & B2) & (B3 & B4)).
    exists t', (w ++ w'). split; [exact E'|]. split; [exact C1|]. split; [exact C2|]. unfold adds. rewrite B1, A1, B3, A3, B2, A2, B4, A4, !app_assoc. auto.
  - injection E as ->. exists s2, w. tauto.
Qed.

(** ** Lines *)
Definition fresh (x : string) (e : bool) : sed_state := mkSed 0 x e hold0 false [] 0 [] [] [].
Definition gives (x : string) (e : bool) (w : list item) : Prop := exists n t, cyc true n (fresh x e) = Some t /\ s_out t = w.
Definition end_of (ended : bool) (rest : list string) : bool := match rest with [] => ended | _ => true end.
Fixpoint all_give (ended : bool) (l : list string) (ws : list item) : Prop :=
  match l with
  | [] => ws = []
  | x :: l' => exists w w', gives x (end_of ended l') w /\ all_give ended l' w' /\ ws = w ++ w'
  end.
Lemma gives_fun x e w w' : gives x e w -> gives x e w' -> w = w'.
Proof. intros (n & t & E & <-) (m & t' & E' & <-). f_equal. eapply cyc_fun; eauto. Qed.
Lemma all_give_fun ended l : forall w w', all_give ended l w -> all_give ended l w' -> w = w'.
Proof.
  induction l as [|x l IH]; cbn; intros w w'; [congruence|]. intros (a & b & A & B & ->) (a' & b' & A' & B' & ->).
  f_equal; [eapply gives_fun; eauto|now apply IH].
Qed.
Lemma start_sim ended st x r : s_rest st = x :: r -> s_queue st = [] -> s_open st = [] -> J (s_hold st) ->
  exists st', starts ended st = Some st' /\ sim st' (fresh x (end_of ended r)) /\ s_rest st' = r /\ s_out st' = s_out st.
Proof.
  intros R Q O Jh. destruct st as [pc sp en h rp qu nu re op out]. cbn in *. subst. eexists. unfold starts, takes. cbn. split; [reflexivity|].
  unfold sim, fresh. cbn. repeat split; auto.
Qed.
Lemma sim_sym st st' : sim st st' -> sim st' st.
Proof. unfold sim. intros (A & B & C & D & E & F & G & H1 & H2 & H3). rewrite <- A. intuition congruence. Qed.
Lemma lines_run ended : forall l st ws, s_rest st = l -> s_queue st = [] -> s_open st = [] -> J (s_hold st) ->
  continues ended st ws <-> exists w, all_give ended l w /\ ws = s_out st ++ w.
Proof.
  induction l as [|x l IH]; intros st ws R Q O Jh.
  - unfold continues, starts, takes. rewrite R. cbn. split; [intros ->; exists []; now rewrite app_nil_r|intros (w & -> & ->); apply app_nil_r].
  - destruct (start_sim ended st x l R Q O Jh) as (st' & ES & S & R' & O'). unfold continues at 1. rewrite ES. split.
    + intros (f & F). destruct (run_cyc ended step_never_stops f st' ws F) as (n & t & E & C).
      destruct (cyc_sim ended true n _ _ _ S E) as (t' & w & E' & (Q1 & O1 & J1) & _ & (A1 & A2) & (_ & A4)).
      apply IH in C; [|congruence|assumption..]. destruct C as (w' & G & ->). exists (w ++ w'). split.
      * cbn. exists w, w'. split; [|auto]. exists n, t'. auto.
      * now rewrite A2, O', app_assoc.
    + cbn. intros (w0 & (w & w' & (n & t' & E' & <-) & G & ->) & ->).
      destruct (cyc_sim true ended n _ _ _ (sim_sym _ _ S) E') as (t & w2 & E & _ & (Q1 & O1 & J1) & (_ & A4) & (A1 & A2)).
      apply (cyc_run ended n st' t _ E). apply IH; [congruence|assumption..|]. exists w'. split; [exact G|]. cbn in A4. now rewrite A2, O', A4, app_assoc.
Qed.
Lemma prints_give input out : sed_prints o fl sc input out <-> exists w, all_give (is_ended newline input) (lines input) w /\ out = render w.
Proof.
  pose proof (lines_run (is_ended newline input) (lines input) (sed_begin (lines input))) as L. unfold sed_prints, continues in *.
  specialize (fun ws => L ws eq_refl eq_refl eq_refl J0). cbn [s_out sed_begin app] in L.
  destruct (starts (is_ended newline input) (sed_begin (lines input))) as [st|] eqn:E.
  - split.
    + intros (f & l & F & ->). destruct (L l) as (L1 & _). destruct L1 as (w & G & ->); [now exists f|]. now exists w.
    + intros (w & G & ->). destruct (L w) as (_ & L2). destruct L2 as (f & F); [now exists w|]. now exists f, w.
  - destruct (lines input) as [|x l]; [|discriminate E]. cbn. split; [intros ->; now exists []|intros (w & -> & ->); reflexivity].
Qed.
Lemma all_give_app ended l2 : l2 <> [] -> forall l1 w, all_give ended (l1 ++ l2) w <-> exists w1 w2, all_give true l1 w1 /\ all_give ended l2 w2 /\ w = w1 ++ w2.
Proof.
  intros NE. induction l1 as [|x l1 IH]; intros w; cbn.
  - split; [intros G; now exists [], w|intros (w1 & w2 & -> & G & ->); exact G].
  - assert (EO : end_of ended (l1 ++ l2) = true) by (destruct l1; [destruct l2; [contradiction|reflexivity]|reflexivity]).
    assert (EO' : end_of true l1 = true) by (destruct l1; reflexivity). rewrite EO, EO'. split.
    + intros (a & b & A & B & ->). apply IH in B as (w1 & w2 & G1 & G2 & ->). exists (a ++ w1), w2. split; [now exists a, w1|]. split; [exact G2|apply app_assoc].
    + intros (w1 & w2 & (a & b & A & B & ->) & G & ->). exists a, (b ++ w2). split; [exact A|]. split; [apply IH; now exists b, w2|symmetry; apply app_assoc].
Qed.

(** ** Every line ends with a newline if every line that is read does *)
Definition tidy (st : sed_state) : Prop := s_ended st = true /\ snd (s_hold st) = true /\ Forall (fun x => snd x = true) (s_out st).
Lemma tidy_flush st : tidy st -> tidy (flush st).
Proof.
  intros (A & B & C). unfold tidy, flush. cbn. split; [exact A|]. split; [exact B|]. apply Forall_app. split; [exact C|]. apply Forall_forall.
  intros x I. apply in_map_iff in I as (t & <- & _). reflexivity.
Qed.
Lemma tidy_step e st : tidy st -> match sed_step o fl sc e st with Inside t | NextLine t => tidy t | Stop _ => True end.
Proof.
  intros T. unfold sed_step. destruct (nth_error sc (s_pc st)) as [l|] eqn:EL.
  2: { apply tidy_flush. unfold shows. destruct (given fl ["-n"]); [exact T|]. destruct T as (A & B & C). split; [exact A|]. split; [exact B|]. cbn.
       apply Forall_app. split; [exact C|]. apply Forall_cons; [exact A|apply Forall_nil]. }
  destruct (selects o fl (l_where l) st) as (b, op). assert (T' : tidy (opens op st)) by exact T.
  destruct (xorb b (l_negated l)); [|exact T]. generalize dependent (opens op st). clear T. intros st' (A & B & C).
  destruct (OWN _ (nth_error_In _ _ EL)) as (_ & OA). unfold own_action in OA.
  destruct (l_action l); try (exfalso; apply OA; cbn; tauto); cbn [acts];
    try solve [repeat split; cbn; auto; apply Forall_app; split; auto].
  - destruct (m_subst o fl regex replacement flags (s_space st')) as (x & []); cbn [andb]; [|repeat split; auto].
    destruct (has_char "p" flags); repeat split; cbn; auto. apply Forall_app; split; auto.
  - apply tidy_flush. repeat split; auto.
  - destruct (snd (first_line (s_space st'))); [|apply tidy_flush; repeat split; auto]. apply (tidy_flush st'). repeat split; auto.
  - apply tidy_flush. destruct (is_open st'); repeat split; cbn; auto. apply Forall_app; split; auto.
  - destruct (s_replaced st'); repeat split; cbn; auto.
  - destruct (s_replaced st'); repeat split; cbn; auto.
Qed.
Lemma tidy_cyc e n : forall st t, tidy st -> cyc e n st = Some t -> tidy t.
Proof.
  induction n as [|n IH]; intros st t T E; [discriminate|]. cbn [cyc] in E. pose proof (tidy_step e st T) as T'.
  destruct (sed_step o fl sc e st); [now apply IH in E|now injection E as <-|discriminate].
Qed.
Lemma all_give_tidy l : forall w, all_give true l w -> Forall (fun x => snd x = true) w.
Proof.
  induction l as [|x l IH]; cbn; intros w; [intros ->; apply Forall_nil|]. intros (a & b & (n & t & E & <-) & B & ->). apply Forall_app. split; [|now apply IH].
  apply (tidy_cyc true n (fresh x (end_of true l)) t); [|exact E]. repeat split; auto; [now destruct l|apply Forall_nil].
Qed.
Lemma render_app w1 w2 : Forall (fun x => snd x = true) w1 -> render (w1 ++ w2) = render w1 +++ render w2.
Proof.
  induction w1 as [|(s, b) w1 IH]; [reflexivity|]. intros F. inversion F as [|? ? E F']; subst. cbn in E. subst b. specialize (IH F').
  assert (R : forall w, render ((s, true) :: w) = s +++ String newline (render w)) by (intros [|? ?]; reflexivity).
  change ((((s, true) :: w1) ++ w2)) with ((s, true) :: (w1 ++ w2)). rewrite !R, IH, append_assoc. reflexivity.
Qed.
Lemma prints_app a b out : ends_line a -> sed_prints o fl sc (a +++ b) out <-> exists o1 o2, sed_prints o fl sc a o1 /\ sed_prints o fl sc b o2 /\ out = o1 +++ o2.
Proof.
  intros EA. assert (E : is_ended newline a = true) by (destruct EA as [->|(t & ->)]; [reflexivity|apply ended_end]).
  destruct b as [|x b].
  - rewrite append_nil. assert (Z : forall o2, sed_prints o fl sc "" o2 <-> o2 = "") by (intros; reflexivity). split.
    + intros P. exists out, "". rewrite append_nil. repeat split; auto.
    + intros (o1 & o2 & P1 & P2 & ->). apply Z in P2 as ->. now rewrite append_nil.
  - assert (GA : forall w, sed_prints o fl sc a w <-> exists v, all_give true (lines a) v /\ w = render v) by (intros w; rewrite prints_give, E; reflexivity).
    rewrite prints_give. unfold lines at 1. rewrite records_app by exact EA. rewrite ended_app by discriminate.
    assert (NE : records newline (String x b) <> []) by (intros N; apply records_nil in N; discriminate). split.
    + intros (w & G & ->). apply (all_give_app _ _ NE) in G as (w1 & w2 & G1 & G2 & ->). exists (render w1), (render w2).
      split; [apply GA; now exists w1|]. split; [apply prints_give; now exists w2|]. apply render_app. eapply all_give_tidy; eauto.
    + intros (o1 & o2 & P1 & P2 & ->). apply GA in P1 as (w1 & G1 & ->). apply prints_give in P2 as (w2 & G2 & ->). exists (w1 ++ w2).
      split; [apply all_give_app; [exact NE|now exists w1, w2]|]. symmetry. apply render_app. eapply all_give_tidy; eauto.
Qed.

End Script.

(** ** The three kinds of scripts *)
Lemma kinds sc : by_itself sc -> exists (J : item -> Prop) (free : nat -> Prop), J hold0 /\
  (forall h h', J h -> J h' -> h = h' \/ free 0) /\
  (forall n l, nth_error sc n = Some l -> free n ->
     l = mkSedLine Everywhere false AHold \/ (free (S n) /\ forall m, In (l_action l) [ABranch m; ATest m; ATestNot m] -> free m)) /\
  (forall n l, nth_error sc n = Some l -> reads_hold (l_action l) -> ~ free n) /\
  (forall l, In l sc -> writes_hold (l_action l) -> forall h, J h).
Proof.
  intros (_ & [W|[R|(before & after & -> & K)]]).
  - exists (eq hold0), (fun _ => False). repeat split; try tauto; [intros h h' <- <-; now left|]. intros l I WH. now destruct (W l I).
  - exists (fun _ => True), (fun _ => True). repeat split; auto. intros n l E RH. now destruct (R l (nth_error_In _ _ E)).
  - exists (fun _ => True), (fun n => n <= length before). repeat split; auto; [right; lia| |].
    + intros n l E L. destruct (Nat.eq_dec n (length before)) as [->|N].
      * left. rewrite nth_error_app2, Nat.sub_diag in E by lia. now injection E as <-.
      * right. rewrite nth_error_app1 in E by lia. destruct (K l (nth_error_In _ _ E)) as (_ & NJ). split; [lia|]. intros m I. destruct NJ.
        cbn in I. exists m. intuition congruence.
    + intros n l E RH L. destruct (Nat.eq_dec n (length before)) as [->|N].
      * rewrite nth_error_app2, Nat.sub_diag in E by lia. injection E as <-. cbn in RH. intuition discriminate.
      * rewrite nth_error_app1 in E by lia. destruct (K l (nth_error_In _ _ E)) as (NR & _). contradiction.
Qed.
Lemma sed_prints_app o fl sc a b out : by_itself sc -> ends_line a ->
  sed_prints o fl sc (a +++ b) out <-> exists o1 o2, sed_prints o fl sc a o1 /\ sed_prints o fl sc b o2 /\ out = o1 +++ o2.
Proof. intros B EA. destruct (kinds sc B) as (J & free & J0 & F0 & FS & FR & FW). destruct B as (OWN & _). now apply (prints_app o fl sc J free). Qed.

(** ** Scripts that go forward end *)
Definition sed_measure (sc : sed_script) (st : sed_state) : nat := length (s_rest st) * S (length sc) + (length sc - s_pc st).
Lemma takes_rest e st x st' : takes e st = Some (x, st') -> s_rest st = x :: s_rest st'.
Proof. unfold takes. destruct (s_rest st); [discriminate|]. intros E. injection E as -> <-. reflexivity. Qed.
Lemma forward_step o fl sc e st : forward sc ->
  match sed_step o fl sc e st with
  | Inside t => sed_measure sc t < sed_measure sc st
  | NextLine t => s_rest t = s_rest st
  | Stop _ => True
  end.
Proof.
  intros FWD. unfold sed_step. destruct (nth_error sc (s_pc st)) as [l|] eqn:EL; [|unfold shows; destruct (given fl ["-n"]); reflexivity].
  assert (LT : s_pc st < length sc) by (apply nth_error_Some; congruence). destruct (FWD _ _ EL) as (ND & FJ).
  assert (M : forall t, s_rest t = s_rest st -> s_pc st < s_pc t -> sed_measure sc t < sed_measure sc st) by (unfold sed_measure; intros t -> L; lia).
  destruct (selects o fl (l_where l) st) as (b, op). destruct (xorb b (l_negated l)); [|apply M; cbn; [reflexivity|lia]].
  assert (N : forall t x t', takes e t = Some (x, t') -> s_rest t = s_rest st -> forall y, sed_measure sc (goes (S (s_pc (opens op st))) (spaces y t')) < sed_measure sc st).
  { intros t x t' T R y. apply takes_rest in T. unfold sed_measure. cbn [goes spaces s_rest s_pc]. rewrite <- R, T. cbn. lia. }
  destruct (l_action l); cbn [acts]; try exact I; try solve [apply M; cbn; [reflexivity|lia]]; try congruence.
  - destruct (m_subst o fl regex replacement flags (s_space (opens op st))) as (x & []); cbn [andb]; [destruct (has_char "p" flags)|]; apply M; cbn; auto.
  - reflexivity.
  - destruct (takes e _) as [(x & st')|] eqn:T; [|exact I]. eapply N; [exact T|]. unfold shows. destruct (given fl ["-n"]); reflexivity.
  - destruct (takes e _) as [(x & st')|] eqn:T; [|exact I]. eapply N; [exact T|]. reflexivity.
  - destruct (is_open (opens op st)); reflexivity.
  - apply M; [reflexivity|]. specialize (FJ target). cbn in *. apply FJ; tauto.
  - specialize (FJ target). cbn in *. destruct (s_replaced st); apply M; cbn; auto.
  - specialize (FJ target). cbn in *. destruct (s_replaced st); apply M; cbn; auto.
Qed.
Lemma forward_runs o fl sc e : forward sc -> forall n st, sed_measure sc st < n -> exists l, sed_run o fl sc e n st = Some l.
Proof.
  intros F. induction n as [|n IH]; intros st L; [lia|]. cbn [sed_run]. pose proof (forward_step o fl sc e st F) as X.
  destruct (sed_step o fl sc e st) as [t|t|t]; [apply IH; lia| |now exists (s_out t)].
  unfold starts. destruct (takes e t) as [(x & t')|] eqn:T; [|now exists (s_out t)]. apply IH. apply takes_rest in T. rewrite X in T.
  unfold sed_measure in *. cbn [goes spaces s_rest s_pc]. rewrite T in L. cbn in L. lia.
Qed.
Lemma sed_forward_ends o fl sc input : forward sc -> sed_ends o fl sc input.
Proof.
  intros F. unfold sed_ends, sed_prints. destruct (starts _ _) as [st|]; [|now exists ""].
  destruct (forward_runs o fl sc (is_ended newline input) F (S (sed_measure sc st)) st) as (l & E); [lia|]. now exists (render l), (S (sed_measure sc st)), l.
Qed.
Lemma sed_prints_fun o fl sc input w w' : sed_prints o fl sc input w -> sed_prints o fl sc input w' -> w = w'.
Proof.
  unfold sed_prints. destruct (starts _ _) as [st|]; [|congruence]. intros (f & l & E & ->) (f' & l' & E' & ->). f_equal.
  remember (is_ended newline input) as e eqn:Ee. clear Ee. revert f' st E E'. induction f as [|f IH]; intros f' st E E'; [discriminate|]. destruct f' as [|f']; [discriminate|].
  cbn [sed_run] in E, E'. destruct (sed_step o fl sc e st) as [t|t|t]; [eapply IH; eauto| |congruence]. destruct (starts e t); [eapply IH; eauto|congruence].
Qed.

(** ** Cutting the input *)
Lemma relational_distributive B c s (P : string -> string -> Prop) :
  (forall sd x w, P x w -> B sd (v_cmd c) (map (wflag_of c s) (v_flags c)) (map (word_of c s) (v_ops c)) [x] = w) ->
  (forall a b w, ends_line a -> P (a +++ b) w -> exists w1 w2, P a w1 /\ P b w2 /\ w = w1 +++ w2) ->
  distributive B c s (fun x => exists w, P x w).
Proof.
  intros E A pieces seed NE HQ CU. cbn zeta.
  remember (fun sd x => B sd (v_cmd c) (map (wflag_of c s) (v_flags c)) (map (word_of c s) (v_ops c)) [x]) as f eqn:Ef.
  assert (Hf : forall sd x w, P x w -> f sd x = w) by (subst f; exact E). clear E.
  assert (G : (forall seed x, In x pieces -> f seed x = f 0 x) /\ f seed (joined pieces) = joined (map (f 0) pieces)).
  { destruct CU as (_ & F). revert HQ F NE. clear Ef. induction pieces as [|x l IH]; intros (w & HQ) F NE; [now destruct NE|]. destruct l as [|y l].
    - cbn [joined fold_right map] in *. rewrite !append_nil in *. split; [intros sd z [<-|[]]|]; now rewrite !(Hf _ _ _ HQ).
    - change (removelast (x :: y :: l)) with (x :: removelast (y :: l)) in F. inversion F as [|? ? EX F']; subst.
      change (joined (x :: y :: l)) with (x +++ joined (y :: l)) in *.
      destruct (A _ _ _ EX HQ) as (w1 & w2 & P1 & P2 & W). destruct IH as (I1 & I2); [now exists w2|exact F'|discriminate|]. split.
      + intros sd z [<-|J]; [now rewrite !(Hf _ _ _ P1)|now apply I1].
      + change (f seed (x +++ joined (y :: l)) = f 0 x +++ joined (map (f 0) (y :: l))). rewrite <- I2, (Hf _ _ _ HQ), (Hf _ _ _ P1), (Hf _ _ _ P2). exact W. }
  subst f. exact G.
Qed.
Lemma full_sound text inv p c v B reads o dir script_text ops sc :
  parse shipped_dir text = Ok inv -> cmd_name inv = "sed" -> offered shipped_dir inv p ->
  invocation_of inv c -> reads_one c v -> v_ops c = PArg script_text :: ops -> reads script_text = Some sc -> by_itself sc ->
  ~ uses_any inv sed_others -> is_sed_full reads o B -> is_cat B ->
  parallel_ok B dir p c v (fun n => n <> 0) (fun x => forall s, sed_ends o (map (wflag_of c s) (v_flags c)) sc x).
Proof.
  intros PA C OF IN R OPS RS L U SB CB. apply concat_sound; auto.
  { eapply stateless_of; eauto. rewrite C. cbn; auto. }
  intros s. assert (CN : v_cmd c = "sed") by (destruct IN as (-> & _); exact C).
  assert (GU : given (map (wflag_of c s) (v_flags c)) sed_others = false) by (apply (given_unused inv); [exact IN|exact U]).
  intros pieces seed NE HQ CU.
  apply (relational_distributive B c s (sed_prints o (map (wflag_of c s) (v_flags c)) sc)); [| |exact NE|apply HQ|exact CU].
  - intros sd x w P. rewrite CN, OPS. cbn [map word_of]. eapply SB; eauto.
    eapply parse_known; eauto; [rewrite C; left; vm_compute; reflexivity|vm_compute; reflexivity].
  - intros a b w EA P. now apply sed_prints_app.
Qed.
