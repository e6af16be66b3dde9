(** * Sound parallelization of sed with one command at some address (C59)
    What sed does is in SpecSem8.v, which addresses are meant in SpecSem12.v, plans in SpecSem.v. *)
From Coq Require Import Lia.
Require Import Verif.PyBase Verif.JsonData Verif.Parser Verif.Access Verif.IOInfo Verif.IOVars
  Verif.Transformers Verif.ParaTypes Verif.ParaGen Verif.MapperAgg Verif.SpecLists Verif.SpecIO Verif.SpecVars Verif.SpecPara
  Verif.ParserFacts Verif.ParaProps Verif.ShippedData Verif.P_Para Verif.SpecSem Verif.SemFacts Verif.SemRun Verif.SemProps Verif.SemSystem
  Verif.P_Sem Verif.SpecSem2 Verif.SemProps2 Verif.P_Sem2 Verif.SpecSem8 Verif.SemProps8 Verif.P_Sem8 Verif.P_Sem6 Verif.SpecSem12.

(** ** What one command prints, line by line *)
Definition shown (fl : list wflag) (x : item) : list item := if given fl ["-n"] then [] else [x].
Definition items (o : sed_meaning) (fl : list wflag) (k : sed_action) (e : bool) (x : string) : list item :=
  match k with
  | ASubst r t f =>
      let '(y, b) := m_subst o fl r t f x in
      (if b && has_char "p" f then [(y, e)] else []) ++ shown fl (if b then y else x, e)
  | ATranslit a b => shown fl (m_translit o a b x, e)
  | APrint => (x, e) :: shown fl (x, e)
  | APrintFirst => (x, true) :: shown fl (x, e)
  | AHold | AHoldAppend => shown fl (x, e)
  | AGet => shown fl ("", true)
  | AZap => shown fl ("", e)
  | AGetAppend => shown fl (x +++ String newline "", e)
  | AAppend t => shown fl (x, e) ++ [(t, true)]
  | ARead f => shown fl (x, e) ++ map (fun t => (t, true)) (m_file o f)
  | AInsert t => (t, true) :: shown fl (x, e)
  | AList => (m_list o fl x, true) :: shown fl (x, e)
  | _ => []
  end.
Definition sat (o : sed_meaning) (fl : list wflag) (n : nat) (x : string) (r : list string) (a : sed_point) : bool :=
  match a with
  | PtLine k => Nat.eqb n k
  | PtLast => match r with [] => true | _ => false end
  | PtMatch re => m_match o fl re x
  end.
Definition chosen (o : sed_meaning) (fl : list wflag) (w : sed_where) (n : nat) (opened : bool) (x : string) (r : list string) : bool * bool :=
  match w with
  | Everywhere => (true, opened)
  | Where a => (sat o fl n x r a, opened)
  | Range a b => if opened then (true, negb (sat o fl n x r b)) else (sat o fl n x r a, sat o fl n x r a)
  end.
Fixpoint output (o : sed_meaning) (fl : list wflag) (w : sed_where) (neg : bool) (k : sed_action) (ended : bool)
    (n : nat) (opened : bool) (l : list string) : list item :=
  match l with
  | [] => []
  | x :: r =>
      let e := match r with [] => ended | _ => true end in
      let '(b, opened') := chosen o fl w n opened x r in
      (if xorb b neg then items o fl k e x else shown fl (x, e)) ++ output o fl w neg k ended (S n) opened' r
  end.

Definition hold_ok (k : sed_action) (h : item) : Prop := In k [AGet; AGetAppend] -> h = ("", true).
Definition ready (k : sed_action) (e : bool) (n : nat) (opened : bool) (l : list string) (st : sed_state) : Prop :=
  s_queue st = [] /\ s_rest st = l /\ S (s_number st) = n /\ existsb (Nat.eqb 0) (s_open st) = opened /\ hold_ok k (s_hold st).
Lemma first_line_clean x : has_char newline x = false -> first_line x = (x, None).
Proof.
  induction x as [|a x IH]; [reflexivity|]. cbn [has_char]. rewrite orb_false_iff. intros (A & B). cbn [first_line].
  rewrite Ascii.eqb_sym, A, (IH B). reflexivity.
Qed.
Lemma says_out l st : s_out (says l st) = s_out st ++ l.
Proof. reflexivity. Qed.
(** The end of the cycle *)
Definition closes (fl : list wflag) (st : sed_state) : sed_state := flush (shows fl st).
Lemma closes_ready fl k e n opened l st x : s_queue st = [] -> s_rest st = l -> S (s_number st) = n -> existsb (Nat.eqb 0) (s_open st) = opened ->
  hold_ok k (s_hold st) -> s_space st = fst x -> s_ended st = snd x ->
  ready k e n opened l (closes fl st) /\ s_out (closes fl st) = s_out st ++ shown fl x.
Proof.
  intros Q R N O H X E. destruct st; cbn in *. subst. destruct x as (x & e'). cbn in *. subst. unfold closes, shown, shows. destruct (given fl ["-n"]); cbn.
  - rewrite app_nil_r. repeat split; cbn; auto. now rewrite app_nil_r.
  - rewrite app_nil_r. repeat split; cbn; auto.
Qed.
Section ONE.
Variables (o : sed_meaning) (fl : list wflag) (w : sed_where) (neg : bool) (k : sed_action).
Hypothesis LC : line_command k.
Definition sc1 : sed_script := [mkSedLine w neg k].
Lemma selects_chosen st x r n : s_pc st = 0 -> s_space st = x -> s_rest st = r -> s_number st = n ->
  fst (selects o fl w st) = fst (chosen o fl w n (existsb (Nat.eqb 0) (s_open st)) x r) /\
  existsb (Nat.eqb 0) (snd (selects o fl w st)) = snd (chosen o fl w n (existsb (Nat.eqb 0) (s_open st)) x r).
Proof.
  destruct st as [pc sp en h rep q num rest op out]. cbn [s_pc s_space s_rest s_number s_open]. intros -> -> -> ->.
  assert (P : forall a, at_point o fl a (mkSed 0 x en h rep q n r op out) = sat o fl n x r a) by (intros [| |]; reflexivity).
  destruct w as [|a|a b]; cbn [selects chosen]; rewrite ?P; try (split; reflexivity).
  unfold is_open. cbn [s_pc s_open]. destruct (existsb (Nat.eqb 0) op) eqn:E; cbn [fst snd].
  - split; [reflexivity|]. destruct (sat o fl n x r b); cbn [negb]; [|exact E].
    clear. induction op as [|[|m] op IH]; cbn; auto.
  - destruct (sat o fl n x r a); cbn [fst snd existsb Nat.eqb orb]; auto.
Qed.
Lemma one_cycle ended n opened x r st : ready k ended n opened (x :: r) st -> has_char newline x = false ->
  exists f0 st1 st2, starts ended st = Some st1 /\
    (forall f, sed_run o fl sc1 ended (f0 + f) st1 = match starts ended st2 with Some st3 => sed_run o fl sc1 ended f st3 | None => Some (s_out st2) end) /\
    ready k ended (S n) (snd (chosen o fl w n opened x r)) r st2 /\
    s_out st2 = s_out st ++ (let e := match r with [] => ended | _ => true end in
      if xorb (fst (chosen o fl w n opened x r)) neg then items o fl k e x else shown fl (x, e)).
Proof.
  intros (Q & R & N & O & H) CL. set (e := match r with [] => ended | _ => true end).
  set (st1 := mkSed 0 x e (s_hold st) false (s_queue st) n r (s_open st) (s_out st)).
  assert (S1 : starts ended st = Some st1) by (unfold starts, takes, st1; rewrite R, <- N; reflexivity).
  pose proof (selects_chosen st1 x r n eq_refl eq_refl eq_refl eq_refl) as (C1 & C2). cbn [s_open st1] in C1, C2. rewrite O in C1, C2.
  destruct (selects o fl w st1) as (b & op) eqn:ES. cbn [fst snd] in C1, C2. rewrite <- C1, <- C2. clear C1 C2.
  assert (STEP0 : sed_step o fl sc1 ended st1 = if xorb b neg then acts o fl ended k (opens op st1) else Inside (goes 1 (opens op st1))).
  { unfold sed_step, sc1. cbn [nth_error s_pc st1 l_where l_negated l_action]. fold st1. rewrite ES. reflexivity. }
  assert (LAST : forall t, s_pc t = 1 -> sed_step o fl sc1 ended t = NextLine (closes fl t)).
  { intros t T. unfold sed_step, sc1. rewrite T. reflexivity. }
  (* two steps, by way of a state that holds [y] and has printed [pre] and queued [post] *)
  assert (TWO : forall t l, sed_step o fl sc1 ended st1 = Inside t -> s_pc t = 1 ->
    ready k ended (S n) (existsb (Nat.eqb 0) op) r (closes fl t) -> s_out (closes fl t) = s_out st ++ l ->
    exists f0 st1' st2, starts ended st = Some st1' /\
    (forall f, sed_run o fl sc1 ended (f0 + f) st1' = match starts ended st2 with Some st3 => sed_run o fl sc1 ended f st3 | None => Some (s_out st2) end) /\
    ready k ended (S n) (existsb (Nat.eqb 0) op) r st2 /\ s_out st2 = s_out st ++ l).
  { intros t l T1 T2 T3 T4. exists 2, st1, (closes fl t). split; [exact S1|]. split; [|split; assumption].
    intros f. cbn [Nat.add sed_run]. rewrite T1, (LAST t T2). reflexivity. }
  assert (SAY : forall t y pre, sed_step o fl sc1 ended st1 = Inside t -> s_pc t = 1 -> s_queue t = [] -> s_rest t = r -> s_number t = n -> s_open t = op ->
     hold_ok k (s_hold t) -> s_space t = fst y -> s_ended t = snd y -> s_out t = s_out st ++ pre ->
     exists f0 st1' st2, starts ended st = Some st1' /\
    (forall f, sed_run o fl sc1 ended (f0 + f) st1' = match starts ended st2 with Some st3 => sed_run o fl sc1 ended f st3 | None => Some (s_out st2) end) /\
    ready k ended (S n) (existsb (Nat.eqb 0) op) r st2 /\ s_out st2 = s_out st ++ pre ++ shown fl y).
  { intros t y pre T1 T2 T3 T4 T5 T6 T7 T8 T9 T10. 
    destruct (closes_ready fl k ended (S n) (existsb (Nat.eqb 0) op) r t y T3 T4) as (A & B); auto; [now rewrite T6|].
    apply (TWO t); auto. now rewrite B, T10, app_assoc. }
  cbn zeta. fold e. destruct (xorb b neg).
  2:{ apply (SAY _ (x, e) [] STEP0); auto. now rewrite app_nil_r. }
  destruct LC as [I|[(rx & t & f & E)|[(a & c & E)|(t & [E|[E|E]])]]].
  - cbn in I. destruct I as [E|[E|[E|[E|[E|[E|[E|[E|[E|[]]]]]]]]]]; rewrite <- E in *; cbn [items]; cbn [acts] in STEP0.
    + apply (SAY _ (x, e) [(x, e)] STEP0); auto.
    + cbn [s_space opens st1] in STEP0. rewrite first_line_clean in STEP0 by exact CL. apply (SAY _ (x, e) [(x, true)] STEP0); auto.
    + exists 1, st1, (flush (opens op st1)). split; [exact S1|]. split; [|split].
      * intros f. cbn [Nat.add sed_run]. rewrite STEP0. reflexivity.
      * repeat split; auto.
      * cbn. rewrite Q. reflexivity.
    + apply (SAY _ (x, e) [] STEP0); auto; [|cbn; now rewrite app_nil_r]. intros [J|[J|[]]]; discriminate.
    + apply (SAY _ (x, e) [] STEP0); auto; [|cbn; now rewrite app_nil_r]. intros [J|[J|[]]]; discriminate.
    + assert (HH : s_hold st = ("", true)) by (apply H; now left). apply (SAY _ ("", true) [] STEP0); auto; cbn; rewrite ?HH; auto. now rewrite app_nil_r.
    + apply (SAY _ ("", e) [] STEP0); auto. cbn. now rewrite app_nil_r.
    + assert (HH : s_hold st = ("", true)) by (apply H; right; now left). apply (SAY _ (x +++ String newline "", e) [] STEP0); auto; cbn; rewrite ?HH; auto. now rewrite app_nil_r.
    + apply (SAY _ (x, e) [(m_list o fl x, true)] STEP0); auto.
  - rewrite E in *. cbn [items]. cbn [acts s_space opens st1] in STEP0. destruct (m_subst o fl rx t f x) as (y & rep).
    destruct rep; cbn [andb] in STEP0 |- *.
    + destruct (has_char "p" f).
      * apply (SAY _ (y, e) [(y, e)] STEP0); auto.
      * apply (SAY _ (y, e) [] STEP0); auto. cbn. now rewrite app_nil_r.
    + apply (SAY _ (x, e) [] STEP0); auto. cbn. now rewrite app_nil_r.
  - rewrite E in *. cbn [items]. cbn [acts s_space opens st1] in STEP0. apply (SAY _ (m_translit o a c x, e) [] STEP0); auto. cbn. now rewrite app_nil_r.
  - rewrite E in *. cbn [items]. cbn [acts s_queue opens st1] in STEP0. rewrite Q in STEP0. cbn [app] in STEP0.
    apply (TWO _ _ STEP0); [reflexivity| |].
    + unfold closes, shows. destruct (given fl ["-n"]); cbn; repeat split; auto.
    + unfold closes, shows, shown. destruct (given fl ["-n"]); cbn; [reflexivity|]. now rewrite <- app_assoc.
  - rewrite E in *. cbn [items]. cbn [acts] in STEP0. apply (SAY _ (x, e) [(t, true)] STEP0); auto.
  - rewrite E in *. cbn [items]. cbn [acts s_queue opens st1] in STEP0. rewrite Q in STEP0. cbn [app] in STEP0.
    apply (TWO _ _ STEP0); [reflexivity| |].
    + unfold closes, shows. destruct (given fl ["-n"]); cbn; repeat split; auto.
    + unfold closes, shows, shown. destruct (given fl ["-n"]); cbn; [reflexivity|]. now rewrite <- app_assoc.
Qed.
Lemma all_cycles ended : forall l n opened st, ready k ended n opened l st -> Forall (fun x => has_char newline x = false) l ->
  match starts ended st with
  | None => l = []
  | Some st1 => exists fuel, sed_run o fl sc1 ended fuel st1 = Some (s_out st ++ output o fl w neg k ended n opened l)
  end.
Proof.
  induction l as [|x r IH]; intros n opened st RD F.
  - destruct RD as (_ & R & _). unfold starts, takes. now rewrite R.
  - inversion F as [|? ? CL F']; subst. destruct (one_cycle ended n opened x r st RD CL) as (f0 & st1 & st2 & S1 & RUN & RD2 & OUT). rewrite S1.
    specialize (IH _ _ _ RD2 F'). cbn [output]. destruct (chosen o fl w n opened x r) as (b & op'). cbn [fst snd] in *.
    destruct (starts ended st2) as [st3|] eqn:E3.
    + destruct IH as (f & E). exists (f0 + f). rewrite RUN, E, OUT, app_assoc. reflexivity.
    + subst r. exists (f0 + 0). rewrite RUN, OUT. cbn [output]. now rewrite app_nil_r.
Qed.
Lemma one_prints input out : sed_prints o fl sc1 input out <->
  out = render (output o fl w neg k (is_ended newline input) 1 false (lines input)).
Proof.
  assert (E : sed_prints o fl sc1 input (render (output o fl w neg k (is_ended newline input) 1 false (lines input)))).
  { pose proof (all_cycles (is_ended newline input) (lines input) 1 false (sed_begin (lines input))) as A.
    unfold sed_prints. destruct (starts _ _) as [st|].
    - destruct A as (f & A); [repeat split; intros _; reflexivity|apply records_clean|]. eauto.
    - rewrite A; [reflexivity| |apply records_clean]. repeat split; intros _; reflexivity. }
  split; [|now intros ->]. intros P. now apply (sed_prints_fun o fl sc1 input).
Qed.
End ONE.

(** ** The texts *)
Lemma length_app a b : String.length (a +++ b) = String.length a + String.length b.
Proof. induction a as [|c a IH]; [reflexivity|]. cbn. now rewrite IH. Qed.
Lemma append_cancel_l a b d : d +++ a = d +++ b -> a = b.
Proof. induction d as [|c d IH]; [auto|]. cbn. intros [= E]. auto. Qed.
Lemma treated_items o fl k e x : line_command k -> treated o fl k x = Some (map fst (items o fl k e x)).
Proof.
  intros [I|[(r & t & f & ->)|[(a & b & ->)|(t & [->|[->| ->]])]]].
  - cbn in I. destruct I as [<-|[<-|[<-|[<-|[<-|[<-|[<-|[<-|[<-|[]]]]]]]]]]; cbn [treated items]; unfold untreated, shown; now destruct (given fl ["-n"]).
  - cbn [treated items]. destruct (m_subst o fl r t f x) as (y & rep). rewrite map_app. unfold untreated, shown.
    destruct rep, (has_char "p" f), (given fl ["-n"]); reflexivity.
  - cbn [treated items]. unfold untreated, shown. now destruct (given fl ["-n"]).
  - cbn [treated items]. unfold untreated, shown. now destruct (given fl ["-n"]).
  - cbn [treated items]. unfold untreated, shown. now destruct (given fl ["-n"]).
  - cbn [treated items]. rewrite map_app, map_map. cbn [fst]. rewrite map_id. unfold untreated, shown. now destruct (given fl ["-n"]).
Qed.
Lemma shown_untreated fl x e : map fst (shown fl (x, e)) = untreated fl x.
Proof. unfold shown, untreated. now destruct (given fl ["-n"]). Qed.
Lemma shown_tidy fl x : Forall (fun i : item => snd i = true) (shown fl (x, true)).
Proof. unfold shown. destruct (given fl ["-n"]); repeat constructor. Qed.
Lemma items_tidy o fl k x : Forall (fun i : item => snd i = true) (items o fl k true x).
Proof.
  destruct k; cbn [items]; try (repeat constructor; fail); try apply shown_tidy; try (constructor; [reflexivity|apply shown_tidy]).
  - destruct (m_subst o fl regex replacement flags x) as (y & b). apply Forall_app. split; [|destruct b; apply shown_tidy].
    destruct (b && has_char "p" flags); repeat constructor.
  - apply Forall_app. split; [apply shown_tidy|repeat constructor].
  - apply Forall_app. split; [apply shown_tidy|]. apply Forall_forall. intros i I. apply in_map_iff in I as (y & <- & _). reflexivity.
Qed.
Lemma render_tidy l : Forall (fun i : item => snd i = true) l -> render l = unlines (map fst l).
Proof.
  induction l as [|(s & e) l IH]; intros F; [reflexivity|]. inversion F as [|? ? E F']; subst. cbn in E. subst e.
  change ((s, true) :: l) with ([(s, true)] ++ l). rewrite render_app by (now repeat constructor). rewrite (IH F'). reflexivity.
Qed.
(** What a line gives if it is treated, and if not *)
Definition gives_text (o : sed_meaning) (fl : list wflag) (neg : bool) (k : sed_action) (b : bool) (x : string) : string :=
  unlines (if xorb b neg then map fst (items o fl k true x) else untreated fl x).
Fixpoint told (o : sed_meaning) (fl : list wflag) (w : sed_where) (neg : bool) (k : sed_action) (n : nat) (opened : bool) (l : list string) : string :=
  match l with
  | [] => ""
  | x :: r => gives_text o fl neg k (fst (chosen o fl w n opened x r)) x +++ told o fl w neg k (S n) (snd (chosen o fl w n opened x r)) r
  end.
Lemma output_told o fl w neg k : forall l n opened, render (output o fl w neg k true n opened l) = told o fl w neg k n opened l.
Proof.
  induction l as [|x r IH]; intros n opened; [reflexivity|]. cbn [output told]. destruct (chosen o fl w n opened x r) as (b & op'). cbn [fst snd].
  replace (match r with [] => true | _ => true end) with true by now destruct r.
  assert (F : Forall (fun i : item => snd i = true) (if xorb b neg then items o fl k true x else shown fl (x, true)))
    by (destruct (xorb b neg); [apply items_tidy|apply shown_tidy]).
  rewrite render_app by exact F. rewrite IH. f_equal. rewrite (render_tidy _ F). unfold gives_text. destruct (xorb b neg); [reflexivity|]. now rewrite shown_untreated.
Qed.
Lemma one_tells o fl w neg k l out : line_command k -> Forall (fun x => has_char newline x = false) l ->
  sed_prints o fl (sc1 w neg k) (unlines l) out -> out = told o fl w neg k 1 false l.
Proof.
  intros LC F P. apply (one_prints o fl w neg k LC) in P. rewrite P. unfold lines, unlines. rewrite (records_terminated newline l F).
  replace (is_ended newline (terminated newline l)) with true; [apply output_told|].
  destruct (terminated_ends newline l) as [->|(t & ->)]; [reflexivity|]. now rewrite ended_end.
Qed.
Lemma unlines_two y z : unlines [y; z] = y +++ String newline (z +++ String newline "").
Proof. unfold unlines, terminated. cbn. rewrite append_nil, append_assoc. reflexivity. Qed.
Lemma unlines_one y : unlines [y] = y +++ String newline "".
Proof. unfold unlines, terminated. cbn. now rewrite append_nil. Qed.
Lemma unlines_one_inj y z : unlines [y] = unlines [z] -> y = z.
Proof. rewrite !unlines_one. apply append_cancel. Qed.
Lemma unlines_more l l' : unlines (l ++ l') = unlines l -> l' = [].
Proof.
  unfold unlines. rewrite terminated_app. intros E. assert (L : String.length (terminated newline l') = 0).
  { apply (f_equal String.length) in E. rewrite length_app in E. lia. }
  destruct l' as [|x l']; [reflexivity|]. unfold terminated in L. cbn [map joined fold_right] in L. rewrite length_app, length_app in L. cbn in L. lia.
Qed.
(** If no line shows a difference then nothing does. *)
Lemma no_items o fl k : line_command k -> (forall x, has_char newline x = false -> no_difference o fl k x) ->
  forall x e, has_char newline x = false -> items o fl k e x = shown fl (x, e).
Proof.
  intros LC H x e CL. assert (D : forall x, has_char newline x = false -> unlines (map fst (items o fl k true x)) = unlines (untreated fl x)).
  { intros y CY. destruct (H y CY) as (l & T & U). rewrite (treated_items o fl k true y LC) in T. injection T as <-. exact U. }
  clear H. pose proof (D x CL) as DX. pose proof (D "a" eq_refl) as DA. clear D. unfold untreated in *.
  destruct LC as [I|[(r & t & f & ->)|[(a & b & ->)|(t & [->|[->| ->]])]]].
  - cbn in I. destruct I as [<-|[<-|[<-|[<-|[<-|[<-|[<-|[<-|[<-|[]]]]]]]]]]; cbn [items] in *; unfold shown in *; destruct (given fl ["-n"]); cbn [map fst] in *;
      try reflexivity; try discriminate.
    + rewrite unlines_one in DX. destruct (m_list o fl x); discriminate.
    + exfalso. apply (f_equal String.length) in DX. rewrite unlines_two, unlines_one, !length_app in DX. cbn in DX. rewrite length_app in DX. cbn in DX. lia.
  - cbn [items] in *. destruct (m_subst o fl r t f x) as (y & rep). unfold shown in *. destruct rep; cbn [andb] in *; [|reflexivity].
    destruct (has_char "p" f), (given fl ["-n"]); cbn [app map fst] in *; try reflexivity.
    + rewrite unlines_one in DX. now destruct y.
    + exfalso. rewrite unlines_two, unlines_one in DX. change (String newline (y +++ String newline "")) with (String newline y +++ String newline "") in DX.
      rewrite <- append_assoc in DX. apply append_cancel in DX. rewrite <- DX, has_char_app in CL. cbn in CL. now rewrite orb_true_r in CL.
    + apply unlines_one_inj in DX. now rewrite DX.
  - cbn [items] in *. unfold shown in *. destruct (given fl ["-n"]); cbn [map fst] in *; [reflexivity|]. apply unlines_one_inj in DX. now rewrite DX.
  - cbn [items] in *. unfold shown in *. exfalso. destruct (given fl ["-n"]); cbn [map app fst] in DX.
    + apply (unlines_more [] [t]) in DX. discriminate.
    + apply (unlines_more [x] [t]) in DX. discriminate.
  - cbn [items] in *. unfold shown in *. exfalso. destruct (given fl ["-n"]); cbn [map app fst] in DX.
    + apply (unlines_more [] [t]) in DX. discriminate.
    + apply (f_equal String.length) in DX. rewrite unlines_two, unlines_one, !length_app in DX. cbn in DX. rewrite length_app in DX. cbn in DX. lia.
  - cbn [items] in *. rewrite map_app, map_map in DX. cbn [fst] in DX. rewrite map_id in DX. unfold shown in *.
    assert (N : m_file o t = []) by (destruct (given fl ["-n"]); cbn [map app fst] in DX; [now apply (unlines_more []) in DX|now apply (unlines_more [x]) in DX]).
    rewrite N. apply app_nil_r.
Qed.

(** ** Addresses that tell by the line *)
Lemma whole_range o fl neg k ended : forall l n opened, opened = true \/ n = 1 ->
  output o fl (Range (PtLine 1) PtLast) neg k ended n opened l = output o fl Everywhere neg k ended n opened l.
Proof.
  induction l as [|x r IH]; intros n opened H; [reflexivity|]. cbn [output chosen].
  assert (C : forall op op', (r = [] \/ op = true) -> output o fl (Range (PtLine 1) PtLast) neg k ended (S n) op r = output o fl Everywhere neg k ended (S n) op' r).
  { intros op op' [->| ->]; [reflexivity|]. rewrite IH by now left. clear. generalize (S n). generalize true at 1. revert op'.
    induction r as [|y r IH]; intros op op' m; [reflexivity|]. cbn [output chosen]. now rewrite (IH op op'). }
  destruct opened.
  - f_equal. apply C. destruct r; [now left|now right].
  - destruct H as [H| ->]; [discriminate|]. cbn [sat Nat.eqb]. f_equal. apply C. now right.
Qed.
Lemma indifferent o fl w neg k ended : (forall x e, has_char newline x = false -> items o fl k e x = shown fl (x, e)) ->
  forall l n opened opened', Forall (fun x => has_char newline x = false) l ->
  output o fl w neg k ended n opened l = output o fl Everywhere neg k ended n opened' l.
Proof.
  intros H. induction l as [|x r IH]; intros n opened opened' F; [reflexivity|]. inversion F as [|? ? CL F']; subst. cbn [output].
  destruct (chosen o fl w n opened x r) as (b & op). cbn [chosen]. rewrite (H x _ CL), (IH _ op opened' F'). now destruct (xorb b neg), (xorb true neg).
Qed.
Lemma one_by_itself w neg k : line_command k -> w = Everywhere \/ (exists r, w = Where (PtMatch r)) -> by_itself (sc1 w neg k).
Proof.
  intros LC W. assert (K : own_action k /\ (~ writes_hold k \/ ~ reads_hold k)).
  { destruct LC as [I|[(r & t & f & ->)|[(a & b & ->)|(t & [->|[->| ->]])]]].
    - cbn in I. destruct I as [<-|[<-|[<-|[<-|[<-|[<-|[<-|[<-|[<-|[]]]]]]]]]]; unfold own_action, writes_hold, reads_hold; cbn; intuition discriminate.
    - unfold own_action, writes_hold, reads_hold; cbn; intuition discriminate.
    - unfold own_action, writes_hold, reads_hold; cbn; intuition discriminate.
    - unfold own_action, writes_hold, reads_hold; cbn; intuition discriminate.
    - unfold own_action, writes_hold, reads_hold; cbn; intuition discriminate.
    - unfold own_action, writes_hold, reads_hold; cbn; intuition discriminate. }
  destruct K as (K1 & K2). split.
  - intros l [<-|[]]. split; [exact W|exact K1].
  - destruct K2 as [K|K]; [left|right; left]; intros l [<-|[]]; exact K.
Qed.
Lemma one_app o fl w neg k a b out : line_command k -> ends_line a ->
  (by_line w = true \/ forall x, has_char newline x = false -> no_difference o fl k x) ->
  sed_prints o fl (sc1 w neg k) (a +++ b) out ->
  exists o1 o2, sed_prints o fl (sc1 w neg k) a o1 /\ sed_prints o fl (sc1 w neg k) b o2 /\ out = o1 +++ o2.
Proof.
  intros LC EA H P.
  assert (G : (w = Everywhere \/ exists r, w = Where (PtMatch r)) \/
              (forall x y, sed_prints o fl (sc1 w neg k) x y <-> sed_prints o fl (sc1 Everywhere neg k) x y)).
  { destruct H as [H|H].
    - destruct w as [|[| |r]|[[|[|n]]| |] [| |]]; try discriminate H; [left; now left|left; right; now exists r|].
      right. intros x y. rewrite !one_prints by exact LC. now rewrite whole_range by now right.
    - right. intros x y. rewrite !one_prints by exact LC. rewrite (indifferent o fl w neg k _ (no_items o fl k LC H) _ 1 false false); [reflexivity|apply records_clean]. }
  destruct G as [G|G].
  - now apply (sed_prints_app o fl _ a b out (one_by_itself w neg k LC G) EA).
  - apply G in P. apply (sed_prints_app o fl _ a b out (one_by_itself Everywhere neg k LC (or_introl eq_refl)) EA) in P as (o1 & o2 & P1 & P2 & E).
    exists o1, o2. split; [now apply G|]. split; [now apply G|exact E].
Qed.

(** ** Addresses that do not *)
Fixpoint rep (n : nat) (s : string) : string := match n with O => "" | S n' => s +++ rep n' s end.
Lemma rep_comm n s : s +++ rep n s = rep n s +++ s.
Proof. induction n as [|n IH]; cbn; [now rewrite append_nil|]. now rewrite IH at 1; rewrite append_assoc. Qed.
Definition with_match (m : list wflag -> string -> string -> bool) (o : sed_meaning) : sed_meaning :=
  mkSedMeaning m (m_subst o) (m_translit o) (m_list o) (m_number o) (m_file o).
Lemma items_match m o fl k e x : items (with_match m o) fl k e x = items o fl k e x.
Proof. destruct k; reflexivity. Qed.
Lemma gives_match m o fl neg k b x : gives_text (with_match m o) fl neg k b x = gives_text o fl neg k b x.
Proof. unfold gives_text. now rewrite items_match. Qed.
Definition at_line (m : nat) (w : sed_where) : Prop := w = Where (PtLine m) \/ exists b, w = Range (PtLine m) b.
Lemma told_before o fl w neg k m x l : at_line m w -> forall j n, n + j <= m ->
  told o fl w neg k n false (repeat x j ++ l) = rep j (gives_text o fl neg k false x) +++ told o fl w neg k (n + j) false l.
Proof.
  intros A. induction j as [|j IH]; intros n L; [cbn; now rewrite Nat.add_0_r|]. cbn [repeat app told rep].
  assert (C : chosen o fl w n false x (repeat x j ++ l) = (false, false)).
  { assert (N : (n =? m)%nat = false) by (apply Nat.eqb_neq; lia). destruct A as [->|(b & ->)]; cbn [chosen sat]; now rewrite N. }
  rewrite C. cbn [fst snd]. rewrite IH by lia. rewrite append_assoc. now rewrite Nat.add_succ_comm.
Qed.
Lemma told_at o fl w neg k m x : at_line m w -> told o fl w neg k m false [x] = gives_text o fl neg k true x.
Proof.
  intros A. cbn [told]. rewrite append_nil. assert (C : fst (chosen o fl w m false x []) = true).
  { destruct A as [->|(b & ->)]; cbn [chosen sat fst]; apply Nat.eqb_refl. }
  now rewrite C.
Qed.
(** Two lists of lines between which the input may be cut *)
Lemma some_wrong o fl w neg k x : line_command k -> proper w -> by_line w = false -> has_char newline x = false -> ~ no_difference o fl k x ->
  exists m l1 l2, Forall (fun y => has_char newline y = false) (l1 ++ l2) /\ let o' := with_match m o in
    told o' fl w neg k 1 false (l1 ++ l2) <> told o' fl w neg k 1 false l1 +++ told o' fl w neg k 1 false l2.
Proof.
  intros LC PR BL CL ND. assert (D : gives_text o fl neg k true x <> gives_text o fl neg k false x).
  { intros E. apply ND. exists (map fst (items o fl k true x)). split; [now apply treated_items|]. unfold gives_text in E. destruct neg; cbn [xorb] in E; congruence. }
  assert (LATE : forall m, 2 <= m -> at_line m w -> exists m' l1 l2, Forall (fun y => has_char newline y = false) (l1 ++ l2) /\ let o' := with_match m' o in
    told o' fl w neg k 1 false (l1 ++ l2) <> told o' fl w neg k 1 false l1 +++ told o' fl w neg k 1 false l2).
  { intros m M A. exists (fun _ _ _ => true), [x], (repeat x (m - 1)). split; [now apply (Forall_forall _ (x :: repeat x (m - 1))); intros y [<-|I]; [|apply repeat_spec in I as ->]|].
    cbn zeta. intros E. replace ([x] ++ repeat x (m - 1)) with (repeat x (m - 1) ++ [x]) in E by (symmetry; apply (repeat_cons (m - 1) x)).
    rewrite (told_before _ _ _ _ _ m x [x] A) in E by lia. replace (1 + (m - 1)) with m in E by lia. rewrite (told_at _ _ _ _ _ m x A) in E.
    rewrite <- (app_nil_r [x]) in E. change ([x] ++ []) with (repeat x 1 ++ []) in E. rewrite (told_before _ _ _ _ _ m x [] A) in E by lia.
    rewrite <- (app_nil_r (repeat x (m - 1))) in E. rewrite (told_before _ _ _ _ _ m x [] A) in E by lia. cbn [told rep] in E. rewrite !append_nil in E.
    rewrite rep_comm in E. apply append_cancel_l in E. rewrite !gives_match in E. contradiction. }
  assert (LAST : w = Where PtLast \/ (exists b, w = Range PtLast b) -> exists m' l1 l2, Forall (fun y => has_char newline y = false) (l1 ++ l2) /\ let o' := with_match m' o in
    told o' fl w neg k 1 false (l1 ++ l2) <> told o' fl w neg k 1 false l1 +++ told o' fl w neg k 1 false l2).
  { intros W. exists (fun _ _ _ => true), [x], [x]. split; [repeat constructor; exact CL|]. cbn zeta. intros E.
    destruct W as [->|(b & ->)]; cbn [app told chosen sat fst snd] in E; rewrite !append_nil, !gives_match in E; apply append_cancel in E; congruence. }
  destruct w as [|a|a b]; [discriminate BL| |].
  - destruct a as [[|[|m]]| |r]; [now destruct PR| | |apply LAST; now left|discriminate BL].
    + exists (fun _ _ _ => true), [x], [x]. split; [repeat constructor; exact CL|]. cbn zeta. intros E.
      cbn [app told chosen sat fst snd Nat.eqb] in E. rewrite !append_nil, !gives_match in E. apply append_cancel_l in E. congruence.
    + apply (LATE (S (S m))); [lia|now left].
  - destruct PR as (PR & NB). destruct a as [[|[|m]]| |r]; [now destruct PR| | |apply LAST; right; now exists b|].
    + destruct b as [n| |r]; [now destruct (NB n)|discriminate BL|].
      exists (fun _ _ _ => true), [x; x], [x]. split; [repeat constructor; exact CL|]. cbn zeta. intros E.
      cbn [app told chosen sat fst snd Nat.eqb negb with_match m_match] in E. rewrite !append_nil, !gives_match, append_assoc in E. do 2 apply append_cancel_l in E. congruence.
    + apply (LATE (S (S m))); [lia|right; now exists b].
    + exists (fun _ _ s => String.eqb s (String "z" x)), [String "z" x], [x].
      split; [repeat constructor; [cbn [has_char]; rewrite CL; reflexivity|exact CL]|]. cbn zeta. intros E.
      assert (NX : String.eqb x (String "z" x) = false).
      { apply String.eqb_neq. intros Q. apply (f_equal String.length) in Q. cbn in Q. lia. }
      cbn [app told chosen sat fst snd with_match m_match] in E. rewrite String.eqb_refl, NX in E. cbn [fst snd] in E.
      rewrite !append_nil, !gives_match in E. apply append_cancel_l in E. congruence.
Qed.

(** ** A system for every meaning *)
Definition run12 (o : sed_meaning) (fl : list wflag) (sc : sed_script) (input : string) : string :=
  match starts (is_ended newline input) (sed_begin (lines input)) with
  | None => ""
  | Some st => match sed_run o fl sc (is_ended newline input) (S (sed_measure sc st)) st with Some l => render l | None => "" end
  end.
Definition system12 (reads : string -> option sed_script) (o : sed_meaning) : behaviour := fun seed cmd fl ops inputs =>
  if String.eqb cmd "sed" then
    match ops with
    | WText t :: _ => match reads t with Some sc => run12 o fl sc (joined inputs) | None => "" end
    | _ => ""
    end
  else simple_system seed cmd fl ops inputs.
Lemma system12_cat reads o : is_cat (system12 reads o).
Proof. intros seed ops inputs _. reflexivity. Qed.
Lemma run12_prints o fl sc input : forward sc -> sed_prints o fl sc input (run12 o fl sc input).
Proof.
  intros F. unfold sed_prints, run12. destruct (starts _ _) as [st|]; [|reflexivity].
  destruct (forward_runs o fl sc (is_ended newline input) F (S (sed_measure sc st)) st) as (l & E); [lia|].
  exists (S (sed_measure sc st)), l. now rewrite E.
Qed.
Lemma system12_sed reads o : (forall t sc, reads t = Some sc -> forward sc) -> is_sed_full reads o (system12 reads o).
Proof.
  intros F seed fl t ops input sc out _ _ RS P. unfold system12. cbn [String.eqb Ascii.eqb Bool.eqb joined fold_right]. rewrite RS, append_nil.
  apply (sed_prints_fun o fl sc input); [|exact P]. apply run12_prints. eauto.
Qed.

(** ** Plans *)
Lemma one_forward w neg k : line_command k -> forward (sc1 w neg k).
Proof.
  intros LC i l E. destruct i as [|i]; [|destruct i; discriminate E]. injection E as <-. cbn [l_action].
  destruct LC as [I|[(r & t & f & ->)|[(a & b & ->)|(t & [->|[->| ->]])]]].
  - cbn in I. destruct I as [<-|[<-|[<-|[<-|[<-|[<-|[<-|[<-|[<-|[]]]]]]]]]]; (split; [discriminate|intros n I; cbn in I; intuition discriminate]).
  - split; [discriminate|intros n I; cbn in I; intuition discriminate].
  - split; [discriminate|intros n I; cbn in I; intuition discriminate].
  - split; [discriminate|intros n I; cbn in I; intuition discriminate].
  - split; [discriminate|intros n I; cbn in I; intuition discriminate].
  - split; [discriminate|intros n I; cbn in I; intuition discriminate].
Qed.
Lemma unlines_end l : ends_line (unlines l).
Proof.
  induction l as [|x l IH] using rev_ind; [now left|]. right. unfold unlines. rewrite terminated_app. unfold terminated at 2. cbn [map joined fold_right].
  exists (terminated newline l +++ x). now rewrite append_nil, append_assoc.
Qed.
Lemma same_difference o o' fl k x : same_commands o o' -> no_difference o fl k x -> no_difference o' fl k x.
Proof.
  intros (E1 & E2 & E3 & _ & E4) (l & T & U). exists l. split; [|exact U]. rewrite <- T. destruct k; cbn [treated]; now rewrite ?E1, ?E2, ?E3, ?E4.
Qed.
Lemma difference_dec o fl k x : line_command k -> {no_difference o fl k x} + {~ no_difference o fl k x}.
Proof.
  intros LC. destruct (string_dec (unlines (map fst (items o fl k true x))) (unlines (untreated fl x))) as [Y|N]; [left|right].
  - exists (map fst (items o fl k true x)). split; [now apply treated_items|exact Y].
  - intros (l & T & U). rewrite (treated_items o fl k true x LC) in T. injection T as <-. contradiction.
Qed.
(** Sound: at all lines, at those that match, or where the command makes no difference *)
Theorem C59_one_partial : forall text inv p c v B reads o dir script_text ops w neg k,
  parse shipped_dir text = Ok inv -> cmd_name inv = "sed" -> offered shipped_dir inv p ->
  invocation_of inv c -> reads_one c v -> v_ops c = PArg script_text :: ops ->
  reads script_text = Some [mkSedLine w neg k] -> line_command k ->
  ~ uses_any inv sed_others -> is_sed_full reads o B -> is_cat B ->
  (by_line w = false -> forall s x, has_char newline x = false -> no_difference o (map (wflag_of c s) (v_flags c)) k x) ->
  parallel_ok B dir p c v (fun n => n <> 0) (fun _ => True).
Proof.
  intros text inv p c v B reads o dir script_text ops w neg k PA C OF IN R OPS RS LC U SB CB ND. apply concat_sound; auto.
  { eapply stateless_of; eauto. rewrite C. cbn; auto. }
  intros s. assert (CN : v_cmd c = "sed") by (destruct IN as (-> & _); exact C).
  assert (GU : given (map (wflag_of c s) (v_flags c)) sed_others = false) by (apply (given_unused inv); [exact IN|exact U]).
  intros pieces seed NE HQ CU.
  apply (relational_distributive B c s (sed_prints o (map (wflag_of c s) (v_flags c)) (sc1 w neg k))); [| |exact NE| |exact CU].
  - intros sd x y P. rewrite CN, OPS. cbn [map word_of]. eapply SB; eauto.
    eapply parse_known; eauto; [rewrite C; left; vm_compute; reflexivity|vm_compute; reflexivity].
  - intros a b y EA P. apply one_app; auto. destruct (by_line w) eqn:W; [now left|right]. intros x. now apply ND.
  - apply sed_forward_ends. now apply one_forward.
Qed.
Print Assumptions C59_one_partial.
(** Wrong for every other address of every command that makes a difference for some line: with some
    regular expressions, if the address has any *)
Theorem C59_one_wrong : forall text inv p c v reads o dir script_text ops w neg k s x,
  parse shipped_dir text = Ok inv -> cmd_name inv = "sed" -> In p (stateless SpecPara.concat) ->
  invocation_of inv c -> reads_one c v -> tight c -> v_ops c = PArg script_text :: ops ->
  reads script_text = Some [mkSedLine w neg k] -> (forall t sc, reads t = Some sc -> forward sc) ->
  line_command k -> proper w -> ~ uses_any inv sed_others ->
  by_line w = false -> has_char newline x = false -> ~ no_difference o (map (wflag_of c s) (v_flags c)) k x ->
  exists B o', same_commands o o' /\ is_sed_full reads o' B /\ is_cat B /\
    parallel_wrong B dir p c v (fun n => n <> 0) (fun _ => True).
Proof.
  intros text inv p c v reads o dir script_text ops w neg k s x PA C OF IN R T OPS RS FW LC PR U BL CL ND.
  destruct (some_wrong o (map (wflag_of c s) (v_flags c)) w neg k x LC PR BL CL ND) as (m & l1 & l2 & F & E). cbn zeta in E.
  set (o' := with_match m o) in *. exists (system12 reads o'), o'. split; [now repeat split|]. split; [now apply system12_sed|]. split; [apply system12_cat|].
  assert (CN : v_cmd c = "sed") by (destruct IN as (-> & _); exact C).
  assert (G : forall sd l, Forall (fun y => has_char newline y = false) l ->
    system12 reads o' sd (v_cmd c) (map (wflag_of c s) (v_flags c)) (map (word_of c s) (v_ops c)) [unlines l] = told o' (map (wflag_of c s) (v_flags c)) w neg k 1 false l).
  { intros sd l Fl. apply (one_tells o' _ w neg k l _ LC Fl). rewrite CN, OPS. cbn [map word_of]. unfold system12. cbn [String.eqb Ascii.eqb Bool.eqb joined fold_right].
    rewrite RS, append_nil. apply run12_prints. now apply one_forward. }
  pose proof F as F'. apply Forall_app in F' as (F1 & F2).
  apply (concat_wrong (system12 reads o') dir p c v (fun _ => True) s (unlines l1) (unlines l2)); auto; [apply system12_cat|apply unlines_end| |].
  - intros sd. now rewrite !G.
  - intros sd. unfold unlines at 1 2. rewrite <- terminated_app. fold (unlines (l1 ++ l2)). now rewrite !G.
Qed.
Print Assumptions C59_one_wrong.
(** The exact condition *)
Theorem C59_one_iff : forall text inv p c v reads o dir script_text ops w neg k,
  parse shipped_dir text = Ok inv -> cmd_name inv = "sed" -> offered shipped_dir inv p ->
  invocation_of inv c -> reads_one c v -> tight c -> v_ops c = PArg script_text :: ops ->
  reads script_text = Some [mkSedLine w neg k] -> (forall t sc, reads t = Some sc -> forward sc) ->
  line_command k -> proper w -> ~ uses_any inv sed_others ->
  (forall B o', same_commands o o' -> is_sed_full reads o' B -> is_cat B ->
     parallel_ok B dir p c v (fun n => n <> 0) (fun _ => True)) <->
  (by_line w = false -> forall s x, has_char newline x = false -> no_difference o (map (wflag_of c s) (v_flags c)) k x).
Proof.
  intros text inv p c v reads o dir script_text ops w neg k PA C OF IN R T OPS RS FW LC PR U.
  assert (I : In p (stateless SpecPara.concat)) by (eapply stateless_of; eauto; rewrite C; cbn; auto).
  split.
  - intros OK BL s x CL. destruct (difference_dec o (map (wflag_of c s) (v_flags c)) k x LC) as [Y|N]; [exact Y|exfalso].
    destruct (some_wrong o (map (wflag_of c s) (v_flags c)) w neg k x LC PR BL CL N) as (m & l1 & l2 & F & E). cbn zeta in E.
    set (o' := with_match m o) in *. specialize (OK (system12 reads o') o' ltac:(now repeat split) (system12_sed reads o' FW) (system12_cat reads o')).
    pose proof (concat_complete _ dir p c v _ R T I (system12_cat reads o') OK s 0 0 0 (unlines l1) (unlines l2) Logic.I (unlines_end l1)) as X. cbv zeta in X.
    assert (CN : v_cmd c = "sed") by (destruct IN as (-> & _); exact C).
    assert (G : forall sd l, Forall (fun y => has_char newline y = false) l ->
      system12 reads o' sd (v_cmd c) (map (wflag_of c s) (v_flags c)) (map (word_of c s) (v_ops c)) [unlines l] = told o' (map (wflag_of c s) (v_flags c)) w neg k 1 false l).
    { intros sd l Fl. apply (one_tells o' _ w neg k l _ LC Fl). rewrite CN, OPS. cbn [map word_of]. unfold system12. cbn [String.eqb Ascii.eqb Bool.eqb joined fold_right].
      rewrite RS, append_nil. apply run12_prints. now apply one_forward. }
    pose proof F as F'. apply Forall_app in F' as (F1 & F2). unfold unlines at 1 2 in X. rewrite <- terminated_app in X. fold (unlines (l1 ++ l2)) in X.
    rewrite !G in X by assumption. contradiction.
  - intros ND B o' SC SB CB. eapply (C59_one_partial text inv p c v B reads o' dir script_text ops w neg k); eauto.
    intros BL s x CL. eapply same_difference; eauto.
Qed.
Print Assumptions C59_one_iff.

(** ** Examples *)
Definition one_scripts (text : string) : option sed_script :=
  match find (fun x => String.eqb (fst x) text)
    [("1,$s/a/b/", sc1 (Range (PtLine 1) PtLast) false (ASubst "a" "b" ""));
     ("1h", sc1 (Where (PtLine 1)) false AHold);
     ("3s/a/b/", sc1 (Where (PtLine 3)) false (ASubst "a" "b" ""));
     ("$!s/a/b/", sc1 (Where PtLast) true (ASubst "a" "b" ""));
     ("/c/,/e/s/a/b/", sc1 (Range (PtMatch "c") (PtMatch "e")) false (ASubst "a" "b" ""));
     ("1,/c/p", sc1 (Range (PtLine 1) (PtMatch "c")) false APrint)] with
  | Some (_, sc) => Some sc
  | None => None
  end.
Lemma one_scripts_forward t sc : one_scripts t = Some sc -> forward sc.
Proof.
  unfold one_scripts. cbn [find fst]. repeat (destruct (String.eqb _ t); [intros [= <-]; now apply forwardb_forward|]). discriminate.
Qed.
(** Command, flags, script *)
Definition one_sound : list (string * list flag_el * string) :=
  [("sed '1,$s/a/b/'", [], "1,$s/a/b/"); ("sed 1h", [], "1h"); ("sed -n '3s/a/b/'", [FFlag "-n"], "3s/a/b/")].
Definition one_unsound : list (string * list flag_el * string) :=
  [("sed 3s/a/b/", [], "3s/a/b/"); ("sed '$!s/a/b/'", [], "$!s/a/b/"); ("sed /c/,/e/s/a/b/", [], "/c/,/e/s/a/b/"); ("sed -n 1,/c/p", [FFlag "-n"], "1,/c/p")].
Example C59_one_case : forall text flags t, In (text, flags, t) one_sound ->
  exists inv w neg k, parse shipped_dir text = Ok inv /\ one_scripts t = Some [mkSedLine w neg k] /\ line_command k /\ proper w /\
  let c := filter_civ "sed" flags [PArg t] in
  invocation_of inv c /\ reads_one c 1 /\ tight c /\
  forall p, In p (stateless SpecPara.concat) ->
    offered shipped_dir inv p /\ parallel_ok (system12 one_scripts simple_meaning) shipped_dir p c 1 (fun n => n <> 0) (fun _ => True).
Proof.
  intros text flags t I. unfold one_sound in I. cbn [In] in I.
  repeat (destruct I as [E|I]; [injection E as <- <- <-|]); try destruct I.
  all: match goal with |- context [parse shipped_dir ?t] => destruct (parse shipped_dir t) as [inv|] eqn:P; [|vm_compute in P; discriminate P] end;
    pose proof P as P'; vm_compute in P'; injection P' as <-;
    do 4 eexists; (split; [reflexivity|]); (split; [vm_compute; reflexivity|]);
    (split; [unfold line_command; cbn; eauto 8|]); (split; [cbn; unfold proper_point; try split; discriminate|]); cbv zeta;
    (split; [split; reflexivity|]); (split; [now apply filter_civ_reads|]); (split; [now apply filter_civ_tight|]); intros p I.
  all: match goal with |- offered ?d ?i ?p /\ _ => assert (OF : offered d i p) by (eapply offered_first; [vm_compute; reflexivity|exact I]) end;
    (split; [exact OF|]).
  all: eapply (C59_one_partial _ _ p _ 1 (system12 one_scripts simple_meaning) one_scripts simple_meaning shipped_dir _ _ _ _ _ P eq_refl OF);
    [split; reflexivity|now apply filter_civ_reads|reflexivity|vm_compute; reflexivity|unfold line_command; cbn; eauto 8
    | |apply system12_sed; exact one_scripts_forward|apply system12_cat| ].
  all: try (intros (n & J & U); apply uses_in in U; cbn in J, U; intuition subst; discriminate).
  - discriminate.
  - intros _ s x _. eexists. split; reflexivity.
  - intros _ s x _. cbn -[replace_first]. unfold no_difference, treated. cbn -[replace_first]. destruct (replace_first "a" "b" x) as (y & []); eexists; split; reflexivity.
Qed.
Example C59_one_wrong_case : forall text flags t, In (text, flags, t) one_unsound ->
  exists inv w neg k, parse shipped_dir text = Ok inv /\ one_scripts t = Some [mkSedLine w neg k] /\ line_command k /\ proper w /\
  let c := filter_civ "sed" flags [PArg t] in
  invocation_of inv c /\ reads_one c 1 /\ tight c /\
  forall p, In p (stateless SpecPara.concat) -> offered shipped_dir inv p /\
    exists B o', same_commands simple_meaning o' /\ is_sed_full one_scripts o' B /\ is_cat B /\
      parallel_wrong B shipped_dir p c 1 (fun n => n <> 0) (fun _ => True).
Proof.
  intros text flags t I. unfold one_unsound in I. cbn [In] in I.
  repeat (destruct I as [E|I]; [injection E as <- <- <-|]); try destruct I.
  all: match goal with |- context [parse shipped_dir ?t] => destruct (parse shipped_dir t) as [inv|] eqn:P; [|vm_compute in P; discriminate P] end;
    pose proof P as P'; vm_compute in P'; injection P' as <-;
    do 4 eexists; (split; [reflexivity|]); (split; [vm_compute; reflexivity|]);
    (split; [unfold line_command; cbn; eauto 8|]); (split; [cbn; unfold proper_point; try split; discriminate|]); cbv zeta;
    (split; [split; reflexivity|]); (split; [now apply filter_civ_reads|]); (split; [now apply filter_civ_tight|]); intros p I;
    (split; [eapply offered_first; [vm_compute; reflexivity|exact I]|]).
  all: eapply (C59_one_wrong _ _ p _ 1 one_scripts simple_meaning shipped_dir _ _ _ _ _ (fun _ => "") "a" P eq_refl I);
    [split; reflexivity|now apply filter_civ_reads|now apply filter_civ_tight|reflexivity|vm_compute; reflexivity|exact one_scripts_forward
    |unfold line_command; cbn; eauto 8|cbn; unfold proper_point; try split; discriminate| |reflexivity|reflexivity|].
  all: try (intros (n & J & U); apply uses_in in U; cbn in J, U; intuition subst; discriminate).
  all: intros (l & T & E); vm_compute in T; injection T as <-; vm_compute in E; discriminate.
Qed.
