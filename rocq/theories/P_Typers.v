(** * Which options share an access (C96) *)
From Coq Require Import Lia.
Require Import Verif.PyBase Verif.JsonData Verif.Parser Verif.Access Verif.IOInfo Verif.IOGen Verif.IOVars Verif.IOHelpers Verif.SpecIOHelpers
  Verif.Heap Verif.HeapApply Verif.HeapIOHelpers Verif.HeapTypers Verif.SpecHeap Verif.SpecApply Verif.SpecShare Verif.SpecTypers
  Verif.HeapFacts Verif.HeapSep Verif.HeapCopy Verif.IOFacts Verif.P_Heap Verif.ApplyFacts Verif.P_Infer Verif.P_Apply Verif.P_IOHelpers Verif.ShareFacts Verif.P_Share Verif.TypersFacts Verif.ShippedData.

(** The list of typers that the constructor makes is the one of the model on values, of new objects;
    the typers of two options are one object exactly when the options have the same name. *)
Theorem C96_typers : forall dir h y fos ops inv, closed h -> invocation_is h y fos ops inv ->
  match get_flagoption_list_typer_h dir y h, get_flagoption_list_typer dir inv with
  | (h', Ok ft), Ok ts => unchanged h h' /\ closed h' /\ exists vs, list_is typer_is h' ft vs ts /\ length vs = length (flag_option_list inv) /\
      (forall v, In v (ft :: vs) -> exists l, v = HRef l /\ forall k, reaches h' v k -> length h <= k) /\
      forall p q n m a b v w, nth_error (flag_option_list inv) p = Some (Option_ n a) -> nth_error (flag_option_list inv) q = Some (Option_ m b) ->
        nth_error vs p = Some v -> nth_error vs q = Some w -> (v = w <-> n = m)
  | (h', Raise e), Raise e' => unchanged h h' /\ e = e'
  | _, _ => False
  end.
Proof.
  intros dir h y fos ops inv C V. pose proof (typers_spec dir h y fos ops inv C V) as T.
  destruct (get_flagoption_list_typer_h dir y h) as (h1 & [ft|x]) eqn:E1, (get_flagoption_list_typer dir inv) as [ts|x'] eqn:E2; try contradiction.
  2: { destruct T as (-> & U). auto. }
  destruct T as (U & C1 & vs & L & New & By & Ln). split; [exact U|]. split; [exact C1|]. exists vs. split; [exact L|].
  assert (Ff : Forall2 (flagoption_is h) fos (flag_option_list inv)) by (destruct V as (b & fl & ol & _ & _ & (b2 & _ & _ & X) & _); exact X).
  split; [rewrite Ln; eapply Forall2_length; eauto|]. split.
  - assert (Each : forall v, In v vs -> exists l, v = HRef l /\ forall k, reaches h1 v k -> length h <= k).
    { intros v J. apply In_nth_error in J as (p & J). destruct (nth_Forall2 _ _ _ New p v J) as (t & _ & (_ & b & w & r & -> & B & Q & F)).
      exists b. split; [reflexivity|]. intros k R. inversion R as [|l0 o v l' Eo Jv R']; subst; [exact B|]. rewrite Q in Eo. injection Eo as <-.
      cbn in Jv. destruct Jv as [<-|[<-|[]]]; [inversion R'|]. destruct r as [| | | | | | |a]; try (inversion R'; fail). destruct (F a eq_refl) as (La & m & Qa). now rewrite (access_reach _ _ _ _ Qa R'). }
    intros v [<-|J]; [|exact (Each v J)]. destruct L as (af & -> & Qf & _). exists af. split; [reflexivity|]. intros k R.
    assert (Lf : length h <= af).
    { unfold get_flagoption_list_typer_h in E1. destruct V as (l & fl & ol & -> & Q & (a & -> & Qf0 & _) & _).
      assert (N : get_cmd_name (HRef l) h = (h, Ok (cmd_name inv))) by (unfold get_cmd_name; now rewrite (bind_ok _ _ _ _ _ (get_attr_ok _ _ _ _ "cmd_name" _ Q eq_refl))).
      rewrite (bind_ok _ _ _ _ _ N) in E1. pose proof (dict_spec dir (cmd_name inv) h C) as D. unfold get_flagoption_list_typer in E2.
      destruct (get_dict_option_to_class_for_arg_h dir (cmd_name inv) h) as (hd & [d|x]) eqn:E3; [rewrite (bind_ok _ _ _ _ _ E3) in E1|rewrite (bind_raise _ _ _ _ _ E3) in E1; discriminate].
      destruct (get_dict_option_to_class_for_arg dir (cmd_name inv)) as [d'|]; [|contradiction]. cbn [bind] in E2. destruct D as (Ud & Cd & D & _).
      rewrite (bind_ok _ _ _ _ _ (get_attr_ok _ _ _ _ "flag_option_list" _ (nth_later _ _ _ _ Ud Q) eq_refl)), (bind_ok _ _ _ _ _ (items_ok _ _ _ (nth_later _ _ _ _ Ud Qf0))) in E1.
      pose proof (loop_spec h hd d d' Ud D fos (flag_option_list inv) hd Ff Cd ltac:(intros z _; reflexivity)) as Lp.
      destruct (hmap (flagoption_typer_h d) fos hd) as (h2 & [us|x]) eqn:E4; [rewrite (bind_ok _ _ _ _ _ E4) in E1|rewrite (bind_raise _ _ _ _ _ E4) in E1; discriminate].
      rewrite E2 in Lp. destruct Lp as (U2 & _). unfold alloc in E1. injection E1 as _ <-. pose proof (unchanged_length _ _ Ud). pose proof (unchanged_length _ _ U2). lia. }
    inversion R as [|l0 o v l' Eo Jv R']; subst; [exact Lf|]. rewrite Qf in Eo. injection Eo as <-. destruct (Each v Jv) as (z & -> & X). exact (X k R').
  - intros p q n m a b v w Pn Qm Pv Qw. destruct (By p q n m a b v w Pn Qm Pv Qw) as (S & D). split; [|exact S].
    intros <-. destruct (String.eqb_spec n m) as [->|N]; [reflexivity|]. exfalso. destruct (D N) as (X & _). now apply X.
Qed.
Print Assumptions C96_typers.

(** A generator, from its construction on, makes on objects what the model on values says, and
    leaves every object there was as it was. *)
Theorem C96_generated : forall dir h y fos ops inv ks, closed h -> invocation_is h y fos ops inv ->
  match generator_h dir y ks h, (let! i := init_io_info dir inv in let! i := call_ios inv ks i in apply_io_info i inv) with
  | (h', Ok r), Ok c => unchanged h h' /\ closed h' /\ invocation_io_is h' r c
  | (h', Raise e), Raise e' => unchanged h h' /\ e = e'
  | _, _ => False
  end.
Proof.
  intros dir h y fos ops inv ks C V. pose proof (typers_spec dir h y fos ops inv C V) as T. unfold generator_h, init_io_info.
  destruct (get_flagoption_list_typer_h dir y h) as (h1 & [ft|x]) eqn:E1, (get_flagoption_list_typer dir inv) as [ts|x'] eqn:E2; try contradiction; cbn [bind].
  - destruct T as (U & C1 & vs & L & _). rewrite (bind_ok _ _ _ _ _ E1).
    pose proof (C95_generated h1 ft vs ts y fos ops inv ks C1 L (invocation_later _ _ _ _ _ _ U V)) as G.
    destruct (generate_h ft y ks h1) as (h' & [r|e]), (let! i := _ in _) as [c|e']; auto; destruct G as (U' & G); (split; [eapply unchanged_trans; eauto|exact G]).
  - rewrite (bind_raise _ _ _ _ _ E1). destruct T as (-> & U). auto.
Qed.
Print Assumptions C96_generated.

(** What is known of a generator that returns *)
Lemma generator_returns dir h y fos ops inv ks h' r : closed h -> invocation_is h y fos ops inv -> generator_h dir y ks h = (h', Ok r) ->
  exists h1 ft vs ts, unchanged h h1 /\ closed h1 /\ list_is typer_is h1 ft vs ts /\ invocation_is h1 y fos ops inv /\ Forall2 (new_ok h h1) vs ts /\
    by_name h1 (flag_option_list inv) vs /\ length vs = length fos /\ generate_h ft y ks h1 = (h', Ok r).
Proof.
  intros C V E. pose proof (typers_spec dir h y fos ops inv C V) as T. unfold generator_h in E.
  destruct (get_flagoption_list_typer_h dir y h) as (h1 & [ft|x]) eqn:E1; [rewrite (bind_ok _ _ _ _ _ E1) in E|rewrite (bind_raise _ _ _ _ _ E1) in E; discriminate].
  destruct (get_flagoption_list_typer dir inv) as [ts|x'] eqn:E2; [|contradiction]. destruct T as (U & C1 & vs & L & N & B & Ln).
  exists h1, ft, vs, ts. split; [exact U|]. split; [exact C1|]. split; [exact L|]. split; [eapply invocation_later; eauto|]. auto.
Qed.
Lemma io_flags h' r c fos' ops' : invocation_io_is h' r c -> result_lists h' r fos' ops' -> Forall2 (fun v z => view_flag h' v = Some (flag_value z)) fos' (io_flag_option_list c).
Proof.
  intros (l1 & fl1 & ol1 & i1 & o1 & fos1 & ops1 & Q & B1 & (b & Eb & B2 & B3) & _) (l' & at1 & fl & ol & Q' & A1 & A2 & A3 & _).
  rewrite Q in Q'. injection Q' as <-. rewrite B1 in A1. injection A1 as <-. cbn in A2. injection A2 as A2. rewrite A2 in Eb. injection Eb as <-.
  rewrite A3 in B2. injection B2 as <-. exact B3.
Qed.
Lemma option_view h l n a : nth_error h l = Some (OInst "OptionWithIO" [("option_name", HStr n); ("option_arg", a)]) ->
  view_flag h (HRef l) = match view_val h a with Some p => Some (FOptIO n p) | None => None end.
Proof. intros E. unfold view_flag, attr. rewrite E. reflexivity. Qed.
Lemma option_view_inv h l n a f : nth_error h l = Some (OInst "OptionWithIO" [("option_name", n); ("option_arg", a)]) -> view_flag h (HRef l) = Some f ->
  exists s p, n = HStr s /\ view_val h a = Some p /\ f = FOptIO s p.
Proof.
  intros E F. destruct n; try (unfold view_flag, attr in F; rewrite E in F; discriminate F). rewrite (option_view _ _ _ _ E) in F.
  destruct (view_val h a) as [p|]; [|discriminate]. injection F as <-. eauto.
Qed.
(** What is known of element [p] of the flags and options of the result *)
Lemma element_made dir h y fos ops inv ks h' r fos' ops' : closed h -> invocation_is h y fos ops inv -> generator_h dir y ks h = (h', Ok r) -> result_lists h' r fos' ops' ->
  exists h1 vs, unchanged h h1 /\ unchanged h1 h' /\ closed h1 /\ by_name h1 (flag_option_list inv) vs /\ length fos' = length (flag_option_list inv) /\
  (forall p v, nth_error ops' p = Some v -> forall a, has_access h' v (HRef a) -> length h1 <= a) /\
  forall p v, nth_error fos' p = Some v -> exists fo f, nth_error fos p = Some fo /\ nth_error (flag_option_list inv) p = Some f /\ flagoption_is h fo f /\
    match f with
    | Flag n => v = fo
    | Option_ n _ => exists u l a z, nth_error vs p = Some (HRef u) /\ v = HRef l /\ length h <= l /\
        nth_error h' l = Some (OInst "OptionWithIO" [("option_name", HStr n); ("option_arg", a)]) /\ view_val h' a = Some (arg_value z) /\
        (((exists s, z = ArgString s) /\ forall b, ~ has_access h' a b) \/
         ((exists e, z = Res e) /\ exists c, has_access h' a (HRef c) /\ nth_error h1 u = Some (typer_obj "filestd" (HRef c)) /\ length h <= c /\ c < length h1 /\
           exists k, nth_error h' c = Some (OInst "AccessKind" [("kind", HAccess k)])))
    end.
Proof.
  intros C V E RL. destruct (generator_returns _ _ _ _ _ _ _ _ _ C V E) as (h1 & ft & vs & ts & U1 & C1 & F & V1 & New & By & Ln & G).
  exists h1, vs. pose proof (generated h1 ft vs ts y fos ops inv ks C1 F V1) as Gd. rewrite G in Gd. destruct (let! i := _ in _) as [c|e'] eqn:Ev in Gd; [|contradiction].
  pose proof (C95_generated h1 ft vs ts y fos ops inv ks C1 F V1) as G5. rewrite G, Ev in G5. destruct G5 as (U2 & C2 & Io).
  destruct Gd as (h2 & x & i & la & ots & iv & ov & S & Ec & Ea).
  pose proof (st_unchanged _ _ _ _ _ _ _ _ _ _ _ _ _ S) as U12. pose proof (invocation_later _ _ _ _ _ _ U12 V1) as V2.
  destruct (applied _ _ _ _ _ _ _ _ _ _ _ _ _ (st_closed _ _ _ _ _ _ _ _ _ _ _ _ _ S) (st_info _ _ _ _ _ _ _ _ _ _ _ _ _ S) V2 Ea) as (U2' & _ & _ & (fos2 & ops2 & RL2 & Kf & _) & _).
  destruct (result_unique _ _ _ _ _ _ RL RL2) as (<- & <-).
  assert (Ff : Forall2 (flagoption_is h) fos (flag_option_list inv)) by (destruct V as (b & fl & ol & _ & _ & (b2 & _ & _ & X) & _); exact X).
  split; [exact U1|]. split; [exact U2|]. split; [exact C1|]. split; [exact By|]. split.
  { rewrite <- (Forall2_length _ _ _ Kf), combine_length, Ln. rewrite (Forall2_length _ _ _ Ff). lia. }
  split.
  { intros p v P a Ha. destruct (operand_made h1 h2 h' ft vs ts y fos ops inv ks x i la ots iv ov c r fos' ops' C1 V1 S Ec Ea RL p v P) as (u & a' & z & _ & _ & _ & [(_ & N)|(_ & Ha' & _ & L & _)]); [exfalso; exact (N _ Ha)|].
    destruct Ha as (l & c1 & n1 & -> & _ & X1), Ha' as (l' & c2 & n2 & [= <-] & _ & X2). rewrite X1 in X2. injection X2 as _ _ <-. exact L. }
  intros p v P. destruct (Forall2_nth_r _ _ _ Kf p v P) as ((fo & tv) & Pc & (Kflag & Kopt)). cbn [fst snd] in Kflag, Kopt. apply nth_combine in Pc as (Po & Pt). cbn [fst snd] in Po, Pt.
  destruct (nth_Forall2 _ _ _ Ff p fo Po) as (f & Pf & Q). exists fo, f. split; [exact Po|]. split; [exact Pf|]. split; [exact Q|].
  destruct Q as (lo & -> & Q). pose proof (unchanged_trans _ _ _ U1 U12) as U02. destruct f as [n|n ar].
  { apply Kflag. exists lo, [("flag_name", HStr n)]. split; [reflexivity|eapply nth_later; [exact U02|exact Q]]. }
  destruct (Kopt ltac:(eexists lo, _; split; [reflexivity|eapply nth_later; [exact U02|exact Q]])) as (l & n' & a & -> & Bl & El & Ka). clear Kflag Kopt.
  destruct (nth_Forall2 _ _ _ New p tv Pt) as (t & Pts & (_ & u & w & r0 & -> & Bu & Qu & Fr)).
  destruct F as (af & _ & _ & Ft). destruct (nth_Forall2 _ _ _ Ft p _ Pt) as (t' & Pts' & (u' & w' & r' & [= <-] & Qu' & T)). rewrite Pts in Pts'. injection Pts' as <-.
  rewrite Qu in Qu'. injection Qu' as <- <-.
  destruct (nth_Forall2 _ _ _ (io_flags _ _ _ _ _ Io RL) p _ P) as (z & Pz & Vz). destruct (option_view_inv _ _ _ _ _ El Vz) as (sn & pv & -> & Va & Ez).
  pose proof (st_fs _ _ _ _ _ _ _ _ _ _ _ _ _ S) as Efs.
  unfold apply_io_info in Ec. destruct (map_result _ (combine (flag_option_list inv) _)) as [fl|] eqn:Ef; [|discriminate]. cbn [bind] in Ec.
  destruct (map_result _ (combine (operand_list inv) _)) as [os|] eqn:Eo; [|discriminate]. cbn [bind] in Ec. injection Ec as <-. cbn [io_flag_option_list] in Pz.
  apply map_result_Forall2 in Ef. destruct (Forall2_nth_r _ _ _ Ef p z Pz) as ((f' & t') & Ps & Ap). apply nth_combine in Ps as (Ps1 & Ps2). cbn [fst snd] in Ps1, Ps2, Ap.
  rewrite Efs, Pts in Ps2. injection Ps2 as <-. rewrite Pf in Ps1. injection Ps1 as <-. cbn [apply_typer_to_flagoption] in Ap.
  assert (Ap' : exists z', apply_typer_to_arg ar t = Ok z' /\ z = OptionIO n z').
  { destruct t; [| |discriminate Ap]; (destruct (apply_typer_to_arg ar _) as [z'|]; [|discriminate Ap]); cbn in Ap; injection Ap as <-; eauto. }
  clear Ap. destruct Ap' as (z' & Ap & ->). cbn in Ez. injection Ez as <- <-. exists u, l, a, z'. split; [exact Pt|]. split; [reflexivity|].
  split; [pose proof (unchanged_length _ _ U02); lia|]. split; [exact El|]. split; [exact Va|].
  destruct t as [ak| |].
  - destruct T as (-> & Vk). destruct r0 as [| | | | | | |ac]; try discriminate Vk. right. split.
    + unfold apply_typer_to_arg in Ap. destruct (is_any_input ak); [injection Ap as <-; eauto|]. destruct (is_any_output ak); [injection Ap as <-; eauto|discriminate].
    + exists ac. destruct (Ka u (HRef ac) eq_refl (nth_later _ _ _ _ U12 Qu)) as (l0 & cl & nm & -> & _ & Icl & E0). split; [exists l0, cl, nm; auto|]. split; [exact Qu|].
      destruct (Fr ac eq_refl) as (L & k & Qk). split; [exact L|]. split; [eapply nth_bound; eauto|]. exists k. eapply nth_later; [exact U2|exact Qk].
  - cbn in Ap. injection Ap as <-. left. split; [eauto|]. intros b Hb. destruct (access_view _ _ _ _ Hb Va) as (el & k & Q' & _). discriminate.
  - discriminate Ap.
Qed.
Lemma access_unique h v a b : has_access h v a -> has_access h v b -> a = b.
Proof. intros (l & cl & nm & -> & _ & E1) (l' & cl' & nm' & Q' & _ & E2). injection Q' as <-. rewrite E1 in E2. injection E2 as _ _ ->. reflexivity. Qed.

(** Every flag of the invocation is itself in the result, every option is replaced by a new one, and
    if its argument is a resource then with an access made by this generator. *)
Theorem C96_elements : forall dir h y fos ops inv ks h' r fos' ops', closed h -> invocation_is h y fos ops inv ->
  generator_h dir y ks h = (h', Ok r) -> result_lists h' r fos' ops' ->
  length fos' = length (flag_option_list inv) /\
  forall p v, nth_error fos' p = Some v -> exists f, nth_error (flag_option_list inv) p = Some f /\
    match f with
    | Flag _ => nth_error fos p = Some v
    | Option_ n _ => exists l x, v = HRef l /\ length h <= l /\ view_flag h' v = Some (FOptIO n x) /\
        ((exists e, x = PRes e) <-> (exists a, has_option_access h' v (HRef a) /\ length h <= a))
    end.
Proof.
  intros dir h y fos ops inv ks h' r fos' ops' C V E RL. destruct (element_made _ _ _ _ _ _ _ _ _ _ _ C V E RL) as (h1 & vs & _ & _ & _ & _ & Ln & _ & El).
  split; [exact Ln|]. intros p v P. destruct (El p v P) as (fo & f & Po & Pf & _ & X). exists f. split; [exact Pf|]. destruct f as [n|n ar]; [now subst|].
  destruct X as (u & l & a & z & _ & -> & L & Q & Va & Z). exists l, (arg_value z). split; [reflexivity|]. split; [exact L|]. split; [now rewrite (option_view _ _ _ _ Q), Va|].
  assert (Inv : forall b, has_option_access h' (HRef l) b -> has_access h' a b) by (intros b (l' & n' & a' & [= <-] & Q' & H); rewrite Q in Q'; injection Q' as _ <-; exact H).
  destruct Z as [((s & ->) & N)|((e & ->) & c & Hc & _ & Lc & _)].
  - split; [intros (e & X); discriminate X|]. intros (b & Hb & _). exfalso. exact (N _ (Inv _ Hb)).
  - split; [|intros _; exists e; reflexivity]. intros _. exists c. split; [|exact Lc]. exists l, (HStr n), a. auto.
Qed.
Print Assumptions C96_elements.

Lemma option_named dir h y fos ops inv ks h' r fos' ops' : closed h -> invocation_is h y fos ops inv -> generator_h dir y ks h = (h', Ok r) -> result_lists h' r fos' ops' ->
  exists h1 vs, unchanged h1 h' /\ closed h1 /\ by_name h1 (flag_option_list inv) vs /\
  forall p v b n p0, nth_error fos' p = Some v -> has_option_access h' v b -> view_flag h' v = Some (FOptIO n p0) -> exists ar u l a c, nth_error (flag_option_list inv) p = Some (Option_ n ar) /\
    nth_error vs p = Some (HRef u) /\ v = HRef l /\ b = HRef c /\ nth_error h' l = Some (OInst "OptionWithIO" [("option_name", HStr n); ("option_arg", a)]) /\ has_access h' a (HRef c) /\
    nth_error h1 u = Some (typer_obj "filestd" (HRef c)) /\ c < length h1 /\ exists k, nth_error h' c = Some (OInst "AccessKind" [("kind", HAccess k)]).
Proof.
  intros C V E RL. destruct (element_made _ _ _ _ _ _ _ _ _ _ _ C V E RL) as (h1 & vs & _ & U1 & C1 & By & _ & _ & El). exists h1, vs. split; [exact U1|]. split; [exact C1|]. split; [exact By|].
  intros p v b n p0 P (l & n0 & a & -> & Q & Ha) Vn. destruct (El p _ P) as (fo & f & Po & Pf & Fi & X). destruct f as [m|m ar].
  - exfalso. subst fo. destruct Fi as (lf & [= <-] & Fi).
    destruct (option_view_inv _ _ _ _ _ Q Vn) as (s & pv & -> & _).
    destruct (generator_returns _ _ _ _ _ _ _ _ _ C V E) as (h2 & ft & vs2 & ts & U2 & C2 & F2 & V2 & _ & _ & _ & G).
    pose proof (C95_generated h2 ft vs2 ts y fos ops inv ks C2 F2 V2) as G5. rewrite G in G5. destruct (let! i := _ in _) as [cc|e']; [|contradiction]. destruct G5 as (U3 & _).
    rewrite (nth_later _ _ _ _ U3 (nth_later _ _ _ _ U2 Fi)) in Q. discriminate Q.
  - destruct X as (u & l' & a' & z & Pu & [= <-] & _ & Q' & Va & Z). rewrite Q in Q'. injection Q' as -> <-.
    rewrite (option_view _ _ _ _ Q), Va in Vn. injection Vn as -> <-.
    destruct Z as [(_ & N)|(_ & c & Hc & Qu & _ & Lc & K)]; [exfalso; exact (N _ Ha)|]. rewrite (access_unique _ _ _ _ Ha Hc) in *.
    exists ar, u, l, a, c. repeat (split; [auto; fail|]). exact K.
Qed.
(** Two options have one access between them exactly when they have the same name. *)
Theorem C96_shared_iff : forall dir h y fos ops inv ks h' r fos' ops' p q v w n m x x' a b, closed h -> invocation_is h y fos ops inv ->
  generator_h dir y ks h = (h', Ok r) -> result_lists h' r fos' ops' -> nth_error fos' p = Some v -> nth_error fos' q = Some w ->
  view_flag h' v = Some (FOptIO n x) -> view_flag h' w = Some (FOptIO m x') -> has_option_access h' v a -> has_option_access h' w b ->
  (a = b <-> n = m).
Proof.
  intros dir h y fos ops inv ks h' r fos' ops' p q v w n m x x' a b C V E RL P Q Vv Vw Ha Hb.
  destruct (option_named _ _ _ _ _ _ _ _ _ _ _ C V E RL) as (h1 & vs & U & C1 & By & El).
  destruct (El p v a n x P Ha Vv) as (ar & u & l & av & c & Pf & Pu & _ & -> & _ & _ & Qu & _).
  destruct (El q w b m x' Q Hb Vw) as (ar' & u' & l' & aw & c' & Qf & Qv & _ & -> & _ & _ & Qu' & _).
  destruct (By p q n m ar ar' _ _ Pf Qf Pu Qv) as (S & D). split.
  - intros [= <-]. destruct (String.eqb_spec n m) as [->|N]; [reflexivity|]. exfalso. destruct (D N) as (_ & D'). exact (D' u u' (HRef c) eq_refl eq_refl Qu Qu').
  - intros N. injection (S N) as <-. rewrite Qu in Qu'. injection Qu' as <-. reflexivity.
Qed.
Print Assumptions C96_shared_iff.
(** An option never shares its access with an operand. *)
Theorem C96_not_with_operands : forall dir h y fos ops inv ks h' r fos' ops' p q v w a b, closed h -> invocation_is h y fos ops inv ->
  generator_h dir y ks h = (h', Ok r) -> result_lists h' r fos' ops' -> nth_error fos' p = Some v -> nth_error ops' q = Some w ->
  has_option_access h' v (HRef a) -> has_access h' w (HRef b) -> a <> b.
Proof.
  intros dir h y fos ops inv ks h' r fos' ops' p q v w a b C V E RL P Q Ha Hb.
  destruct (element_made _ _ _ _ _ _ _ _ _ _ _ C V E RL) as (h1 & vs & U1 & U2 & C1 & By & _ & Op & El). pose proof (Op q w Q b Hb) as Lb.
  destruct Ha as (l & n0 & ag & -> & Q0 & Ha). destruct (El p _ P) as (fo & f & Po & Pf & Fi & X). destruct f as [m|m ar].
  - exfalso. subst fo. destruct Fi as (lf & [= <-] & Fi). rewrite (nth_later _ _ _ _ U2 (nth_later _ _ _ _ U1 Fi)) in Q0. discriminate Q0.
  - destruct X as (u & l' & a' & z & Pu & [= <-] & _ & Q' & Va & Z). rewrite Q0 in Q'. injection Q' as -> <-.
    destruct Z as [(_ & N)|(_ & c & Hc & Qu & _ & Lc & K)]; [exfalso; exact (N _ Ha)|]. pose proof (access_unique _ _ _ _ Ha Hc) as [= <-]. lia.
Qed.
Print Assumptions C96_not_with_operands.

(** So whoever holds one option can change what another one is exactly when they have the same name. *)
Theorem C96_client_iff : forall dir h y fos ops inv ks h' r fos' ops' p q v w n m ev ew, closed h -> invocation_is h y fos ops inv ->
  generator_h dir y ks h = (h', Ok r) -> result_lists h' r fos' ops' -> nth_error fos' p = Some v -> nth_error fos' q = Some w ->
  view_flag h' v = Some (FOptIO n (PRes ev)) -> view_flag h' w = Some (FOptIO m (PRes ew)) ->
  (n = m -> forall k, exists h2 held, client h' [v] h2 held /\ view_flag h2 w = Some (FOptIO m (PRes (mkRes (res_el ew) k)))) /\
  (n <> m -> forall h2 held, client h' [v] h2 held -> view_flag h2 w = Some (FOptIO m (PRes ew))).
Proof.
  intros dir h y fos ops inv ks h' r fos' ops' p q v w n m ev ew C V E RL P Q Vv Vw.
  pose proof (C96_generated dir h y fos ops inv ks C V) as G. rewrite E in G. destruct (let! i := _ in _) as [cc|e']; [|contradiction]. destruct G as (_ & C' & _).
  destruct (option_named _ _ _ _ _ _ _ _ _ _ _ C V E RL) as (h1 & vs & U & C1 & By & El).
  assert (Has : forall p v n e, nth_error fos' p = Some v -> view_flag h' v = Some (FOptIO n (PRes e)) -> exists b, has_option_access h' v b).
  { intros p0 v0 n0 e0 P0 V0. destruct (C96_elements _ _ _ _ _ _ _ _ _ _ _ C V E RL) as (_ & X). destruct (X p0 v0 P0) as (f & Pf & Y). destruct f as [nf|nf ar].
    - exfalso. destruct (element_made _ _ _ _ _ _ _ _ _ _ _ C V E RL) as (h2 & vs2 & U1 & U2 & _ & _ & _ & _ & El2). destruct (El2 p0 v0 P0) as (fo & f & Po & Pf' & Fi & Z).
      rewrite Pf in Pf'. injection Pf' as <-. subst fo. destruct Fi as (lf & -> & Fi). unfold view_flag, attr in V0. rewrite (nth_later _ _ _ _ U2 (nth_later _ _ _ _ U1 Fi)) in V0. discriminate V0.
    - destruct Y as (l & x & -> & _ & Vx & I). rewrite V0 in Vx. injection Vx as <- <-. destruct (proj1 I (ex_intro _ e0 eq_refl)) as (a & Ha & _). eauto. }
  destruct (Has p v n ev P Vv) as (b1 & Hb1). destruct (Has q w m ew Q Vw) as (b2 & Hb2). clear Has.
  pose proof (C96_shared_iff dir h y fos ops inv ks h' r fos' ops' p q v w n m _ _ b1 b2 C V E RL P Q Vv Vw Hb1 Hb2) as Iff.
  destruct (El p v b1 n _ P Hb1 Vv) as (_ & _ & o1 & g1 & c1 & _ & _ & -> & -> & O1 & H1 & _ & _ & k1 & A1).
  destruct (El q w b2 m _ Q Hb2 Vw) as (_ & _ & o2 & g2 & c2 & _ & _ & -> & -> & O2 & H2 & _ & _ & k2 & A2).
  rewrite (option_view _ _ _ _ O1) in Vv. destruct (view_val h' g1) as [pv|] eqn:G1; [|discriminate]. injection Vv as ->.
  rewrite (option_view _ _ _ _ O2) in Vw. destruct (view_val h' g2) as [pw|] eqn:G2; [|discriminate]. injection Vw as ->.
  destruct (access_view _ _ _ _ H1 G1) as (el1 & kk1 & _ & _ & (l1 & cl1 & nm1 & -> & I1 & E1 & Nm1 & _)).
  destruct (access_view _ _ _ _ H2 G2) as (el2 & kk2 & Q2 & K2 & (l2 & cl2 & nm2 & -> & I2 & E2 & Nm2 & Vn)). injection Q2 as ->. cbn [res_el].
  assert (No : forall l c n0 r0, nth_error h' l = Some (OInst c [("name", n0); ("access", r0)]) -> In c ["FileNameWithIOInfo"; "StdDescriptorWithIOInfo"] ->
    (forall a k, nth_error h' a = Some (OInst "AccessKind" [("kind", HAccess k)]) -> l <> a) /\
    (forall a x1 x2, nth_error h' a = Some (OInst "OptionWithIO" [("option_name", x1); ("option_arg", x2)]) -> l <> a)).
  { intros l c n0 r0 X _. split; [intros a k Y ->|intros a x1 x2 Y ->]; rewrite X in Y; discriminate Y. }
  assert (Na : forall a k o x1 x2, nth_error h' a = Some (OInst "AccessKind" [("kind", HAccess k)]) -> nth_error h' o = Some (OInst "OptionWithIO" [("option_name", x1); ("option_arg", x2)]) -> o <> a).
  { intros a k o x1 x2 X Y ->. rewrite X in Y. discriminate Y. }
  split.
  - intros T k. apply Iff in T. injection T as ->. set (ob := OInst "AccessKind" [("kind", HAccess k)]).
    exists (update h' c2 ob), [HRef c2; HRef l1; HRef o1]. split.
    + eapply client_read with (v := HRef l1); [now left|exact O1|cbn; auto|]. eapply client_read with (v := HRef c2); [now left|exact E1|cbn; auto|].
      eapply (client_write h' _ c2 ob); [now left|repeat constructor|apply client_stop].
    + assert (Vl : view_val (update h' c2 ob) (HRef l2) = Some (PRes (mkRes el2 k))).
      { apply (Vn _ (HRef c2) k); [rewrite update_other; [exact E2|intros ->; rewrite A2 in E2; discriminate E2]|].
        unfold view_access, attr. rewrite update_same by (eapply nth_bound; eauto). reflexivity. }
      rewrite (option_view _ o2 m (HRef l2)); [now rewrite Vl|]. rewrite update_other; [exact O2|]. intros ->. rewrite A2 in O2. discriminate O2.
  - intros T h2 held Cl.
    assert (Nc : c1 <> c2) by (intros ->; apply T, Iff; reflexivity).
    assert (Nl : l1 <> l2) by (intros ->; rewrite E1 in E2; injection E2 as _ _ ->; contradiction).
    assert (Nn : o1 <> o2) by (intros ->; rewrite O1 in O2; injection O2 as -> _; contradiction).
    assert (Rc : forall l, reaches h' (HRef l1) l -> l = l1 \/ l = c1).
    { intros l R. inversion R as [|l0 ob0 v0 l' Eo J R']; subst; [now left|]. rewrite E1 in Eo. injection Eo as <-. cbn in J. destruct J as [<-|[<-|[]]].
      - exfalso. inversion R'; subst; eapply Nm1; reflexivity.
      - right. eapply access_reach; eauto. }
    assert (Rv : forall l, reaches h' (HRef o1) l -> l = o1 \/ l = l1 \/ l = c1).
    { intros l R. inversion R as [|l0 ob0 v0 l' Eo J R']; subst; [now left|]. rewrite O1 in Eo. injection Eo as <-. cbn in J. destruct J as [<-|[<-|[]]]; [inversion R'|right; auto]. }
    assert (Keep : forall l, l < length h' -> l <> o1 -> l <> l1 -> l <> c1 -> nth_error h2 l = nth_error h' l).
    { intros l L N1 N2 N3. eapply held_confined; [exact C'|constructor; [|constructor]|exact Cl|exact L|]; [cbn; eapply nth_bound; eauto|].
      intros q0 [<-|[]] R. destruct (Rv l R) as [|[|]]; contradiction. }
    destruct (No _ _ _ _ E1 I1) as (N1 & N1'), (No _ _ _ _ E2 I2) as (N2 & N2').
    assert (Vl : view_val h2 (HRef l2) = Some (PRes (mkRes el2 kk2))).
    { apply (Vn _ (HRef c2) kk2).
      - rewrite Keep; [exact E2|eapply nth_bound; eauto|exact (N2' _ _ _ O1)|auto|exact (N2 _ _ A1)].
      - unfold view_access, attr in *. rewrite Keep; [exact K2|eapply nth_bound; eauto| | |auto]; intros X; symmetry in X; [exact (Na _ _ _ _ _ A2 O1 X)|exact (N1 _ _ A2 X)]. }
    rewrite (option_view _ o2 m (HRef l2)); [now rewrite Vl|]. rewrite Keep; [exact O2|eapply nth_bound; eauto|auto| |exact (Na _ _ _ _ _ A1 O2)]. intros X. symmetry in X. exact (N1' _ _ _ O2 X).
Qed.
Print Assumptions C96_client_iff.

Lemma nth_combine_both {A B} (l : list A) (m : list B) j a b : nth_error l j = Some a -> nth_error m j = Some b -> nth_error (combine l m) j = Some (a, b).
Proof. revert m j. induction l as [|x l IH]; intros [|y m] [|j] E F; cbn in *; try discriminate; [injection E as ->; injection F as ->; reflexivity|now apply IH]. Qed.
(** ** What a generator takes over of the objects there were *)
Theorem C96_old_objects : forall dir h y fos ops inv ks h' r, closed h -> invocation_is h y fos ops inv ->
  generator_h dir y ks h = (h', Ok r) -> forall l, l < length h -> (reaches h' r l <-> of_a_flag h fos l).
Proof.
  intros dir h y fos ops inv ks h' r C V E l L. destruct (generator_returns _ _ _ _ _ _ _ _ _ C V E) as (h1 & ft & vs & ts & U1 & C1 & F & V1 & New & _ & Ln & G).
  pose proof (unchanged_length _ _ U1). rewrite (C95_old_objects h1 ft vs ts y fos ops inv ks h' r C1 F V1 G l) by lia.
  destruct V as (b & fl & ol & _ & _ & (b1 & -> & Lfl & _) & _).
  assert (Vt : forall fo, In fo fos -> valid h fo) by (intros; eapply slot_valid; eauto). split.
  - intros (fo & t & J & [(Cf & R)|(_ & k & r0 & -> & Q & R)]).
    + pose proof (in_combine_l _ _ _ _ J) as J'. exists fo. split; [exact J'|]. split; [now apply (class_same h h1 fo); auto|]. apply (reaches_same h h1); auto.
    + exfalso. apply in_combine_r in J. apply In_nth_error in J as (p & J). destruct (nth_Forall2 _ _ _ New p _ J) as (t & _ & (_ & b2 & w & r1 & [= <-] & _ & Q' & Fr)).
      rewrite Q in Q'. injection Q' as <- <-. destruct r0 as [| | | | | | |a]; try (inversion R; fail). destruct (Fr a eq_refl) as (La & m & Qa). rewrite (access_reach _ _ _ _ Qa R) in L. lia.
  - intros (fo & J & Cf & R). destruct (In_nth_error _ _ J) as (p & Jp).
    assert (Pv : exists t, nth_error vs p = Some t) by (destruct (nth_error vs p) as [t|] eqn:X; [eauto|]; apply nth_error_None in X; assert (p < length fos) by (apply nth_error_Some; congruence); lia).
    destruct Pv as (t & Pt). exists fo, t. split; [eapply nth_error_In with (n := p); now apply nth_combine_both|]. left. split; [now apply (class_same h h1 fo); auto|]. eapply reaches_later; eauto.
Qed.
Print Assumptions C96_old_objects.
(** So the results of two generators share their flags and nothing else, not even for one and the
    same invocation. *)
Theorem C96_two_generators : forall dir1 dir2 h y1 fos1 ops1 inv1 y2 fos2 ops2 inv2 ks1 ks2 h1 h2 r1 r2, closed h ->
  invocation_is h y1 fos1 ops1 inv1 -> invocation_is h y2 fos2 ops2 inv2 ->
  generator_h dir1 y1 ks1 h = (h1, Ok r1) -> generator_h dir2 y2 ks2 h1 = (h2, Ok r2) ->
  forall l, (reaches h2 r1 l /\ reaches h2 r2 l <-> of_a_flag h fos1 l /\ of_a_flag h fos2 l).
Proof.
  intros dir1 dir2 h y1 fos1 ops1 inv1 y2 fos2 ops2 inv2 ks1 ks2 h1 h2 r1 r2 C V1 V2 E1 E2 l.
  pose proof (C96_generated dir1 h y1 fos1 ops1 inv1 ks1 C V1) as G1. rewrite E1 in G1. destruct (let! i := _ in _) as [c1|e']; [|contradiction]. destruct G1 as (U1 & C1 & I1).
  assert (W1 : valid h1 r1) by (destruct I1 as (l0 & fl & ol & i & o & a & b & -> & Q & _); cbn; eapply nth_bound; eauto).
  pose proof (invocation_later _ _ _ _ _ _ U1 V2) as V2'.
  pose proof (C96_generated dir2 h1 y2 fos2 ops2 inv2 ks2 C1 V2') as G2. rewrite E2 in G2. destruct (let! i := _ in _) as [c2|e']; [|contradiction]. destruct G2 as (U2 & C2 & I2).
  pose proof (C96_old_objects _ _ _ _ _ _ _ _ _ C V1 E1) as R1. pose proof (C96_old_objects _ _ _ _ _ _ _ _ _ C1 V2' E2) as R2.
  assert (Sm : of_a_flag h1 fos2 l <-> of_a_flag h fos2 l).
  { destruct V2 as (b & fl & ol & _ & _ & (b1 & -> & Lfl & _) & _). assert (Vt : forall fo, In fo fos2 -> valid h fo) by (intros; eapply slot_valid; eauto).
    split; intros (fo & J & X & R); exists fo; (split; [exact J|]); rewrite (class_same h h1), (reaches_same h h1) in * by auto; auto. }
  assert (Bd : forall fos, of_a_flag h fos l -> l < length h) by (intros fos (fo & _ & _ & R); eapply reaches_bound; eauto).
  rewrite (reaches_same h1 h2) by auto. split.
  - intros (A & B). pose proof (reaches_bound _ _ _ A) as L. apply R2 in B; [|exact L]. apply Sm in B. split; [|exact B]. apply R1; [|exact A]. eauto.
  - intros (A & B). pose proof (Bd _ A) as L. pose proof (unchanged_length _ _ U1). split; [now apply R1|]. apply R2; [lia|]. now apply Sm.
Qed.
Print Assumptions C96_two_generators.

(** ** Cases *)
(** [sort -r -o x -o y --random-source s a] with the shipped data and the calls of
    InputOutputInfoGeneratorSort *)
Definition typers_heap : heap :=
  [OInst "Flag" [("flag_name", HStr "-r")]; OInst "Option" [("option_name", HStr "-o"); ("option_arg", HStr "x")];
   OInst "Option" [("option_name", HStr "-o"); ("option_arg", HStr "y")]; OInst "Option" [("option_name", HStr "--random-source"); ("option_arg", HStr "s")];
   OList [HRef 0; HRef 1; HRef 2; HRef 3]; OInst "Operand" [("name", HStr "a")]; OList [HRef 5];
   OInst "CommandInvocationInitial" [("cmd_name", HStr "sort"); ("flag_option_list", HRef 4); ("operand_list", HRef 6)]].
Definition typers_inv : invocation := mkInv "sort" [Flag "-r"; Option_ "-o" "x"; Option_ "-o" "y"; Option_ "--random-source" "s"] ["a"].
Lemma typers_heap_closed : closed typers_heap.
Proof.
  intros o J. apply Forall_forall. intros v Jv. cbn in J.
  repeat (destruct J as [<-|J]; [cbn in Jv; repeat (destruct Jv as [<-|Jv]; [cbn; auto; lia|]); contradiction|]). contradiction.
Qed.
Lemma typers_heap_inv : invocation_is typers_heap (HRef 7) [HRef 0; HRef 1; HRef 2; HRef 3] [HRef 5] typers_inv.
Proof.
  exists 7, (HRef 4), (HRef 6). split; [reflexivity|]. split; [reflexivity|]. split;
    (eexists; split; [reflexivity|]; split; [reflexivity|]); repeat constructor; eexists; split; reflexivity.
Qed.
Ltac option_access_case := eexists _, _, _; split; [reflexivity|]; split; [vm_compute; reflexivity|has_access_case].
Example C96_case_sort : exists h' r f1 f2 f3 v, generator_h shipped_dir (HRef 7) [AllStreamIn] typers_heap = (h', Ok r) /\ result_lists h' r [HRef 0; f1; f2; f3] [v] /\
  view_flag h' f1 = Some (FOptIO "-o" (PRes (mkRes (FileName "x") STREAM_OUTPUT))) /\ view_flag h' f2 = Some (FOptIO "-o" (PRes (mkRes (FileName "y") STREAM_OUTPUT))) /\
  view_flag h' f3 = Some (FOptIO "--random-source" (PRes (mkRes (FileName "s") CONFIG_INPUT))) /\ view_val h' v = Some (PRes (mkRes (FileName "a") STREAM_INPUT)) /\
  (exists a b d, has_option_access h' f1 (HRef a) /\ has_option_access h' f2 (HRef a) /\ has_option_access h' f3 (HRef b) /\ has_access h' v (HRef d) /\ a <> b /\ a <> d /\ b <> d) /\
  (forall k, exists h2 held, client h' [f1] h2 held /\ view_flag h2 f2 = Some (FOptIO "-o" (PRes (mkRes (FileName "y") k)))) /\
  (forall h2 held, client h' [f1] h2 held -> view_flag h2 f3 = Some (FOptIO "--random-source" (PRes (mkRes (FileName "s") CONFIG_INPUT)))) /\
  (forall l, l < length typers_heap -> (reaches h' r l <-> l = 0)).
Proof.
  destruct (generator_h shipped_dir (HRef 7) [AllStreamIn] typers_heap) as (h' & [r|e]) eqn:E; [|vm_compute in E; discriminate].
  pose proof E as E'. vm_compute in E'. injection E' as Eh Er.
  assert (RL : result_lists h' r [HRef 0; HRef 31; HRef 34; HRef 37] [HRef 40]) by (subst h' r; eexists _, _, _, _; repeat (split; [vm_compute; reflexivity|]); vm_compute; reflexivity).
  exists h', r, (HRef 31), (HRef 34), (HRef 37), (HRef 40). split; [reflexivity|]. split; [exact RL|].
  assert (V1 : view_flag h' (HRef 31) = Some (FOptIO "-o" (PRes (mkRes (FileName "x") STREAM_OUTPUT)))) by (subst h'; vm_compute; reflexivity).
  assert (V2 : view_flag h' (HRef 34) = Some (FOptIO "-o" (PRes (mkRes (FileName "y") STREAM_OUTPUT)))) by (subst h'; vm_compute; reflexivity).
  assert (V3 : view_flag h' (HRef 37) = Some (FOptIO "--random-source" (PRes (mkRes (FileName "s") CONFIG_INPUT)))) by (subst h'; vm_compute; reflexivity).
  split; [exact V1|]. split; [exact V2|]. split; [exact V3|]. split; [subst h'; vm_compute; reflexivity|].
  assert (A : has_option_access h' (HRef 31) (HRef 16) /\ has_option_access h' (HRef 34) (HRef 16) /\ has_option_access h' (HRef 37) (HRef 8) /\ has_access h' (HRef 40) (HRef 25)).
  { subst h'. split; [option_access_case|]. split; [option_access_case|]. split; [option_access_case|has_access_case]. }
  split; [exists 16, 8, 25; destruct A as (A1 & A2 & A3 & A4); repeat (split; [assumption|]); repeat split; discriminate|].
  pose proof (fun p q v w n m ev ew => C96_client_iff _ _ _ _ _ _ _ _ _ _ _ p q v w n m ev ew typers_heap_closed typers_heap_inv E RL) as Cl.
  split; [exact (proj1 (Cl 1 2 _ _ _ _ _ _ eq_refl eq_refl V1 V2) eq_refl)|]. split; [refine (proj2 (Cl 1 3 _ _ _ _ _ _ eq_refl eq_refl V1 V3) _); discriminate|].
  intros l L. rewrite (C96_old_objects _ _ _ _ _ _ _ _ _ typers_heap_closed typers_heap_inv E l L). split.
  - intros (fo & J & Cs & R). cbn in J. destruct J as [<-|[<-|[<-|[<-|[]]]]]; try (destruct Cs as (l0 & at0 & Q & Q'); injection Q as <-; discriminate).
    inversion R as [|l0 o v l' E0 Jv R']; subst; [reflexivity|]. injection E0 as <-. cbn in Jv. destruct Jv as [<-|[]]. inversion R'.
  - intros ->. exists (HRef 0). split; [cbn; auto|]. split; [eexists _, _; split; reflexivity|constructor; exact L].
Qed.
Example C96_case_typers : exists h' ft t0 t1 t3, get_flagoption_list_typer_h shipped_dir (HRef 7) typers_heap = (h', Ok ft) /\
  list_is typer_is h' ft [t0; t1; t1; t3] [PLAINSTRING; FILESTD STREAM_OUTPUT; FILESTD STREAM_OUTPUT; FILESTD CONFIG_INPUT] /\ t1 <> t3.
Proof.
  eexists _, _, _, _, _. split; [vm_compute; reflexivity|]. split.
  - eexists. split; [reflexivity|]. split; [vm_compute; reflexivity|]. repeat constructor; typer_case.
  - discriminate.
Qed.
(** Two generators for this invocation share the flag only. *)
Example C96_case_two : exists h1 h2 r1 r2, generator_h shipped_dir (HRef 7) [AllStreamIn] typers_heap = (h1, Ok r1) /\ generator_h shipped_dir (HRef 7) [AllStreamIn] h1 = (h2, Ok r2) /\
  forall l, reaches h2 r1 l /\ reaches h2 r2 l <-> l = 0.
Proof.
  destruct (generator_h shipped_dir (HRef 7) [AllStreamIn] typers_heap) as (h1 & [r1|e]) eqn:E1; [|vm_compute in E1; discriminate].
  destruct (generator_h shipped_dir (HRef 7) [AllStreamIn] h1) as (h2 & [r2|e]) eqn:E2; [|vm_compute in E1; injection E1 as <- <-; vm_compute in E2; discriminate].
  exists h1, h2, r1, r2. split; [reflexivity|]. split; [exact E2|]. intros l.
  rewrite (C96_two_generators _ _ _ _ _ _ _ _ _ _ _ _ _ _ _ _ _ typers_heap_closed typers_heap_inv typers_heap_inv E1 E2 l). split.
  - intros ((fo & J & Cs & R) & _). cbn in J. destruct J as [<-|[<-|[<-|[<-|[]]]]]; try (destruct Cs as (l0 & at0 & Q & Q'); injection Q as <-; discriminate).
    inversion R as [|l0 o v l' E0 Jv R']; subst; [reflexivity|]. injection E0 as <-. cbn in Jv. destruct Jv as [<-|[]]. inversion R'.
  - intros ->. split; (exists (HRef 0); split; [cbn; auto|]; split; [eexists _, _; split; reflexivity|constructor; cbn; lia]).
Qed.
(** An option that the data do not know *)
Example C96_case_raises : let h := [OInst "Option" [("option_name", HStr "--nope"); ("option_arg", HStr "x")]; OList [HRef 0]; OList [];
    OInst "CommandInvocationInitial" [("cmd_name", HStr "sort"); ("flag_option_list", HRef 1); ("operand_list", HRef 2)]] in
  exists h', generator_h shipped_dir (HRef 3) [] h = (h', Raise KeyError) /\ length h < length h' /\ firstn (length h) h' = h /\
    init_io_info shipped_dir (mkInv "sort" [Option_ "--nope" "x"] []) = Raise KeyError.
Proof. intros h. eexists. split; [vm_compute; reflexivity|]. split; [vm_compute; lia|]. split; vm_compute; reflexivity. Qed.
