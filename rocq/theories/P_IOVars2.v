(** * C42, continued: what is left after a substitution with too few variables *)
From Coq Require Import Lia.
Require Import Verif.PyBase Verif.Access Verif.IOInfo Verif.IOVars Verif.SpecPara Verif.SpecLists Verif.SpecVars Verif.ParaProps Verif.IOVarsFacts Verif.IOVarsProps Verif.P_IOVars.
Local Open Scope nat_scope.

(** The variables of the four fields that a substitution assigns, one after the other *)
Definition parts (c : civ) : list (list Z) :=
  [flat_map var_of (option_args (v_flags c)); flat_map var_of (v_ops c); var_of (v_in c); var_of (v_out c)].

(** grep -f 1 -e 5 pat 2 3, where 5, 2 and 3 are streams *)
Definition C42_example : civ :=
  mkCiv "grep" [FOptIO "-f" (PVar 1); FOptIO "-e" (PVar 5)] [PArg "pat"; PVar 2; PVar 3] PNone (PVar 4)
    (am_set (am_set (am_set (am_set (am_set am_empty 4 STREAM_OUTPUT) 1 CONFIG_INPUT) 5 STREAM_INPUT) 2 STREAM_INPUT) 3 STREAM_INPUT)%Z.
Lemma vars_parts c : vars c = List.concat (parts c).
Proof. rewrite vars_eq. unfold parts, varsl. cbn. now rewrite app_nil_r. Qed.
Lemma map_var_fails g c l m l' x : mapE g (vars c) (v_acc c, l) = ((m, l'), Raise x) ->
  exists c' ps part qs e ws, map_var g (c, l) = ((c', l'), Raise x) /\ skeleton c' = skeleton c /\ v_acc c' = m /\
    parts c = ps ++ part :: qs /\ mapE g (List.concat ps) (v_acc c, l) = (e, Ok ws) /\ (exists y, mapE g part e = (y, Raise x)) /\
    vars c' = ws ++ part ++ List.concat qs.
Proof.
  rewrite vars_eq. unfold map_var. change (fun el => match el with PVar v => _ | _ => _ end) with (lift g).
  unfold flat_map_anything_non_names, then_, assign. cbn [fst].
  rewrite mapE_app. unfold ebind at 1.
  pose proof (loop_flags_runs g (v_flags c) (v_acc c, l)) as F. unfold parts.
  change (flat_map var_of (option_args (v_flags c))) with (varsl (option_args (v_flags c))). change (flat_map var_of (v_ops c)) with (varsl (v_ops c)).
  remember (mapE g (varsl (option_args (v_flags c))) (v_acc c, l)) as r1 eqn:R1. symmetry in R1. destruct r1 as [[m1 l1] [w1|x1]].
  2:{ intros [= <- <- <-]. rewrite F. eexists _, [], _, _, (v_acc c, l), []. split; [reflexivity|]. split; [reflexivity|]. split; [reflexivity|].
      split; [reflexivity|]. split; [reflexivity|]. split; [eauto|]. rewrite vars_eq. cbn. now rewrite app_nil_r. }
  destruct F as (f' & -> & FB & FV). cbn [fst with_flags with_acc v_ops v_acc].
  unfold ebind at 1. rewrite mapE_app. unfold ebind at 1.
  pose proof (loop_ops_runs g (v_ops c) (m1, l1)) as O.
  remember (mapE g (varsl (v_ops c)) (m1, l1)) as r2 eqn:R2. symmetry in R2. destruct r2 as [[m2 l2] [w2|x2]].
  2:{ intros [= <- <- <-]. rewrite O. eexists _, [_], _, _, (m1, l1), w1. split; [reflexivity|]. split; [unfold skeleton; cbn; now rewrite FB|]. split; [reflexivity|].
      split; [reflexivity|]. split; [cbn; rewrite app_nil_r; exact R1|]. split; [eauto|]. rewrite vars_eq. cbn [v_flags v_ops v_in v_out with_flags with_ops with_in with_out with_acc List.concat]. now rewrite ?app_nil_r, FV. }
  destruct O as (o' & -> & OB & OV). cbn [fst with_ops with_acc v_in v_acc with_flags].
  unfold ebind at 1. rewrite mapE_app. unfold ebind at 1.
  assert (R12 : mapE g (varsl (option_args (v_flags c)) ++ varsl (v_ops c)) (v_acc c, l) = ((m2, l2), Ok (w1 ++ w2))).
  { rewrite mapE_app. unfold ebind. now rewrite R1, R2. }
  pose proof (implicit_runs g (v_in c) (m2, l2)) as I.
  remember (mapE g (var_of (v_in c)) (m2, l2)) as r3 eqn:R3. symmetry in R3. destruct r3 as [[m3 l3] [w3|x3]].
  2:{ intros [= <- <- <-]. rewrite I. eexists _, [_; _], _, _, (m2, l2), (w1 ++ w2). split; [reflexivity|]. split; [unfold skeleton; cbn; now rewrite FB, OB|]. split; [reflexivity|].
      split; [reflexivity|]. split; [cbn; rewrite app_nil_r; exact R12|]. split; [eauto|]. rewrite vars_eq. cbn [v_flags v_ops v_in v_out with_flags with_ops with_in with_out with_acc List.concat]. now rewrite ?app_nil_r, FV, OV, <- app_assoc. }
  destruct I as (i' & -> & IB & IV). cbn [fst with_in with_ops with_acc v_out v_acc with_flags].
  unfold ebind at 1.
  assert (R123 : mapE g (varsl (option_args (v_flags c)) ++ varsl (v_ops c) ++ var_of (v_in c)) (v_acc c, l) = ((m3, l3), Ok (w1 ++ w2 ++ w3))).
  { rewrite app_assoc, mapE_app. unfold ebind. rewrite R12, R3. unfold ret. now rewrite <- app_assoc. }
  pose proof (implicit_runs g (v_out c) (m3, l3)) as T.
  remember (mapE g (var_of (v_out c)) (m3, l3)) as r4 eqn:R4. symmetry in R4. destruct r4 as [[m4 l4] [w4|x4]].
  2:{ intros [= <- <- <-]. rewrite T. eexists _, [_; _; _], _, [], (m3, l3), (w1 ++ w2 ++ w3). split; [reflexivity|]. split; [unfold skeleton; cbn; now rewrite FB, OB, IB|]. split; [reflexivity|].
      split; [reflexivity|]. split; [cbn; rewrite app_nil_r; exact R123|]. split; [eauto|]. rewrite vars_eq. cbn [v_flags v_ops v_in v_out with_flags with_ops with_in with_out with_acc List.concat]. now rewrite ?app_nil_r, FV, OV, IV, <- !app_assoc. }
  cbn. discriminate.
Qed.

Section few.
Variable k : access.
Notation sub := (substitute_fun (fun a => access_eqb a k)).
Lemma run_few_exact vs : forall (m : amap) new,
  NoDup vs -> (forall v, In v vs -> m v <> None) -> apart k m vs new -> length new < length (streams k m vs) ->
  mapE sub vs (m, new) = ((shift k m (streams k m vs) new, []), Raise IndexError).
Proof.
  induction vs as [|v vs IH]; intros m new N A D L; [cbn in L; lia|].
  apply NoDup_cons_iff in N as [Nv N]. cbn [mapE]. unfold ebind at 1. unfold streams in *. cbn [filter] in *.
  destruct (m v) as [a|] eqn:B; [|now elim (A v (or_introl eq_refl))].
  destruct (access_eqb a k) eqn:P.
  - apply access_eqb_eq in P as ->. destruct new as [|w new].
    + now rewrite (sub_none k m v B).
    + rewrite (sub_hit k m v w new B). cbn [shift]. set (m1 := am_set (am_del m v) w k).
      assert (E : forall u, In u vs -> m1 u = m u).
      { intros u I. unfold m1. destruct (Z.eq_dec u w) as [->|NE].
        - rewrite am_set_eq. destruct (m w) as [b|] eqn:B'.
          + destruct (access_eqb b k) eqn:BK; [apply access_eqb_eq in BK; congruence|].
            exfalso. refine (D w w _ _ _ eq_refl); [now left|now right|].
            rewrite B'. intros X. injection X as ->. now rewrite access_eqb_refl in BK.
          + exfalso. refine (D w w _ _ _ eq_refl); [now left|now right|congruence].
        - rewrite am_set_ne by exact NE. apply am_del_ne. intros ->. contradiction. }
      pose proof (streams_ext k m m1 vs E) as S. unfold streams in S.
      specialize (IH m1 new N). rewrite S in IH. cbv beta iota. unfold ebind. rewrite IH; [reflexivity| | |].
      * intros u I. rewrite E by exact I. apply A. now right.
      * intros x u Ix Iu Hu. rewrite E in Hu by exact Iu. apply D; [now right|now right|exact Hu].
      * cbn [length] in L. lia.
  - rewrite (sub_miss k m v new a B).
    + cbv beta iota. unfold ebind. rewrite IH; auto.
      * intros u I. apply A. now right.
      * intros x u Ix Iu. apply D; [exact Ix|now right].
    + intros ->. now rewrite access_eqb_refl in P.
Qed.
Lemma shift_firstn old : forall m new, length new <= length old -> shift k m old new = shift k m (firstn (length new) old) new.
Proof. induction old as [|v old IH]; intros m [|w new] L; cbn in *; try reflexivity; try lia. apply IH. lia. Qed.
Lemma streams_app m a b : streams k m (a ++ b) = streams k m a ++ streams k m b.
Proof. apply filter_app. Qed.
End few.
Lemma firstn_app_ge {A} n (a b : list A) : length a <= n -> firstn n (a ++ b) = a ++ firstn (n - length a) b.
Proof. intros L. rewrite firstn_app. f_equal. apply firstn_all2. exact L. Qed.

(** With too few variables: the accesses have moved for as many variables as were given, but
    only the fields before the one where the variables ran out have got the new names. *)
Theorem C42_too_few : forall k c old new, k = STREAM_INPUT \/ k = STREAM_OUTPUT ->
  consistent c -> kept (with_access c k) (vars c) old -> fresh_for c new -> length new < length old ->
  exists c' ps part qs given us, substitute_streams k c new = ((c', []), Raise IndexError) /\ skeleton c' = skeleton c /\
    moved (firstn (length new) old) new (v_acc c) (v_acc c') /\
    parts c = ps ++ part :: qs /\
    given = firstn (length given) new /\ filled (with_access c k) (List.concat ps) given us /\
    (exists here, kept (with_access c k) part here /\ length given <= length new < length given + length here) /\
    vars c' = us ++ part ++ List.concat qs.
Proof.
  intros k c old new KK C K F L. apply old_eq in K as ->.
  assert (E : substitute_streams k c new = subst_of k (c, new)) by (destruct KK as [-> | ->]; reflexivity).
  pose proof (fresh_apart k c new F) as D. pose proof C as [N A].
  pose proof (run_few_exact k (vars c) (v_acc c) new N A D L) as R.
  destruct (map_var_fails _ _ _ _ _ _ R) as (c' & ps & part & qs & e & ws & M & S & V & P & RP & (y & RY) & W).
  assert (VP : vars c = List.concat ps ++ part ++ List.concat qs) by (rewrite vars_parts, P, concat_app; reflexivity).
  rewrite VP in N. assert (NP : NoDup (List.concat ps)) by (eapply NoDup_app_remove_r; exact N).
  assert (NS : NoDup part) by (eapply NoDup_app_remove_r, NoDup_app_remove_l; exact N).
  assert (INC : forall v, In v (List.concat ps) -> In v (vars c)) by (intros v I; rewrite VP; apply in_or_app; now left).
  assert (INS : forall v, In v part -> In v (vars c)) by (intros v I; rewrite VP; apply in_or_app; right; apply in_or_app; now left).
  set (m := v_acc c) in *. set (op := streams k m (List.concat ps)).
  assert (LE : length op <= length new).
  { destruct (Nat.le_gt_cases (length op) (length new)) as [H|H]; [exact H|exfalso].
    pose proof (run_few_exact k (List.concat ps) m new NP) as X. fold op in X. rewrite X in RP; [discriminate| | |exact H].
    - intros v I. apply A. auto.
    - intros w v I J. apply D; auto. }
  set (given := firstn (length op) new). set (more := skipn (length op) new).
  assert (NM : new = given ++ more) by (symmetry; apply firstn_skipn).
  assert (LG : length given = length op) by (unfold given; rewrite firstn_length; lia).
  destruct (kept_length_filled _ _ _ (streams_kept k m (List.concat ps)) given LG) as [us U].
  assert (RP' : mapE (substitute_fun (fun a => access_eqb a k)) (List.concat ps) (m, given ++ more) = ((shift k m op given, more), Ok us)).
  { apply run_sub; auto. intros w v I J. apply D; auto. rewrite NM. apply in_or_app. now left. }
  rewrite <- NM, RP in RP'. injection RP' as -> ->.
  assert (EP : forall v, In v part -> shift k m op given v = m v).
  { intros v I. assert (X : moved op given m (shift k m op given)).
    { apply shift_moved.
      - intros u J. apply (kept_in _ _ _ _ (streams_kept k m (List.concat ps))) in J. apply J.
      - apply (kept_NoDup _ _ _ (streams_kept k m (List.concat ps)) NP).
      - apply (NoDup_app_remove_r given more). rewrite <- NM. apply F.
      - assert (Q : forall w, In w given -> ~ In w op).
        { intros w J J'. apply (kept_in _ _ _ _ (streams_kept k m (List.concat ps))) in J' as [J' _]. apply (proj2 F w); [rewrite NM; apply in_or_app; now left|auto]. }
        clear -LG Q. revert LG Q. generalize op. clear. induction given as [|w g IH]; intros [|v o] L Q; try discriminate L; constructor.
        + intros I. apply (Q w); [now left|now right].
        + apply IH; [now injection L|]. intros u I J. apply (Q u); now right. }
    destruct X as (_ & _ & X). apply X.
    - intros J. apply (kept_in _ _ _ _ (streams_kept k m (List.concat ps))) in J as [J _].
      clear -N I J. induction (List.concat ps) as [|x l IH]; [destruct J|]. cbn in N. apply NoDup_cons_iff in N as [N1 N2]. destruct J as [->|J]; [|auto].
      apply N1. apply in_or_app. right. apply in_or_app. now left.
    - intros J. apply (proj2 F v); [rewrite NM; apply in_or_app; now left|auto]. }
  assert (LT : length more < length (streams k m part)).
  { destruct (Nat.le_gt_cases (length (streams k m part)) (length more)) as [H|H]; [exfalso|exact H].
    set (m1 := shift k m op given) in *. pose proof (streams_ext k m m1 part EP) as SE.
    destruct (kept_length_filled _ _ _ (streams_kept k m1 part) (firstn (length (streams k m part)) more)) as [vs U'].
    { rewrite SE, firstn_length. lia. }
    pose proof (run_sub k part m1 (firstn (length (streams k m part)) more) vs (skipn (length (streams k m part)) more) NS) as X.
    rewrite firstn_skipn in X. rewrite X in RY; [discriminate| | |exact U'].
    - intros v I. rewrite EP by exact I. apply A. auto.
    - intros w v I J Q. rewrite EP in Q by exact J. apply D; auto. rewrite NM. apply in_or_app. right.
      rewrite <- (firstn_skipn (length (streams k m part)) more). apply in_or_app. now left. }
  exists c', ps, part, qs, given, us. split; [|split; [|split; [|split; [|split; [|split; [|split]]]]]].
  - rewrite E. unfold subst_of, substitute, then_. now rewrite M.
  - exact S.
  - rewrite V. unfold m. fold (old_of k c). rewrite shift_firstn by lia. apply shift_moved.
    + intros v I. assert (I' : In v (old_of k c)) by (rewrite <- (firstn_skipn (length new) (old_of k c)); apply in_or_app; now left). now apply old_in in I'.
    + apply (NoDup_app_remove_r _ (skipn (length new) (old_of k c))). rewrite firstn_skipn. apply (kept_NoDup _ _ _ (old_kept k c)). apply C.
    + apply F.
    + assert (Q : forall w, In w new -> ~ In w (firstn (length new) (old_of k c))).
      { intros w J J'. assert (J2 : In w (old_of k c)) by (rewrite <- (firstn_skipn (length new) (old_of k c)); apply in_or_app; now left).
        apply old_in in J2 as [J2 _]. now apply (proj2 F w). }
      assert (LL : length (firstn (length new) (old_of k c)) = length new) by (rewrite firstn_length; lia).
      revert LL Q. generalize (firstn (length new) (old_of k c)). clear. induction new as [|w g IH]; intros [|v o] L Q; try discriminate L; constructor.
      * intros I. apply (Q w); [now left|now right].
      * apply IH; [now injection L|]. intros u I J. apply (Q u); now right.
  - exact P.
  - now rewrite LG.
  - exact U.
  - exists (streams k m part). split; [apply streams_kept|]. rewrite NM, app_length. lia.
  - exact W.
Qed.
Print Assumptions C42_too_few.

Lemma moved_access k (m m' : amap) o n : Forall2 (fun v w => m' w = m v) o n -> (forall u, In u o -> m u = Some k) -> forall v, In v n -> m' v = Some k.
Proof. induction 1 as [|a b o n Q _ IH]; intros X v I; [destruct I|]. destruct I as [<-|I]; [rewrite Q; apply X; now left|apply IH; auto]. intros u J. apply X. now right. Qed.
(** Exactly when the invocation is still consistent: if the variables ran out between two of
    the four fields. *)
Theorem C42_too_few_iff : forall k c old new c' l r, k = STREAM_INPUT \/ k = STREAM_OUTPUT ->
  consistent c -> kept (with_access c k) (vars c) old -> fresh_for c new -> length new < length old ->
  substitute_streams k c new = ((c', l), r) ->
  (consistent c' <-> exists ps qs replaced, parts c = ps ++ qs /\ kept (with_access c k) (List.concat ps) replaced /\ length new = length replaced).
Proof.
  intros k c old new c' l r KK C K F L E.
  destruct (C42_too_few k c old new KK C K F L) as (c1 & ps & part & qs & given & us & E1 & S & MV & P & G & U & (here & KH & LL) & W).
  rewrite E in E1. injection E1 as -> -> ->. rename c1 into c'.
  pose proof (streams_kept k (v_acc c) (List.concat ps)) as KP. pose proof (filled_length _ _ _ _ U _ KP) as LP.
  assert (VP : vars c = List.concat ps ++ part ++ List.concat qs) by (rewrite vars_parts, P, concat_app; reflexivity).
  apply old_eq in K as ->. pose proof (kept_fun _ _ _ KH _ (streams_kept k (v_acc c) part)) as ->.
  assert (OLD : old_of k c = streams k (v_acc c) (List.concat ps) ++ streams k (v_acc c) part ++ streams k (v_acc c) (List.concat qs)).
  { unfold old_of. rewrite VP, !streams_app. reflexivity. }
  destruct C as [N A]. destruct MV as (MV1 & MV2 & MV3). split.
  - intros (N' & A'). exists ps, (part :: qs), (streams k (v_acc c) (List.concat ps)). split; [exact P|]. split; [exact KP|].
    destruct (Nat.eq_dec (length new) (length given)) as [e|NE]; [congruence|exfalso].
    destruct (streams k (v_acc c) part) as [|v here] eqn:H; [cbn in LL; lia|].
    assert (IV : In v part). { assert (J : In v (streams k (v_acc c) part)) by (rewrite H; now left). apply (kept_in _ _ _ _ (streams_kept k (v_acc c) part)) in J. apply J. }
    apply (A' v); [rewrite W; apply in_or_app; right; apply in_or_app; now left|]. apply MV2.
    + rewrite OLD, firstn_app_ge by lia. apply in_or_app. right. rewrite LP. destruct (length new - length given) eqn:Z; [lia|]. cbn. now left.
    + intros J. apply (proj2 F v J). rewrite VP. apply in_or_app. right. apply in_or_app. now left.
  - intros (ps' & qs' & rep & P' & KR & LR).
    assert (LE : length new = length given).
    { pose proof (kept_fun _ _ _ KR _ (streams_kept k (v_acc c) (List.concat ps'))) as ->.
      assert (X : (exists z, ps = ps' ++ z) \/ exists z, ps' = (ps ++ [part]) ++ z).
      { rewrite P in P'. clear -P'. revert ps' P'. induction ps as [|x ps IH]; intros [|y ps'] H; cbn in *.
        - left. now exists [].
        - injection H as <- _. right. now exists ps'.
        - left. now eexists.
        - injection H as <- H. destruct (IH _ H) as [(z & ->)|(z & ->)]; [left|right]; now exists z. }
      destruct X as [(z & ->)|(z & ->)].
      - rewrite concat_app, streams_app, app_length in LP. lia.
      - rewrite !concat_app, !streams_app, !app_length in LR. cbn [List.concat] in LR. rewrite app_nil_r in LR. lia. }
    assert (GN : given = new) by (rewrite G, <- LE; apply firstn_all). subst given.
    assert (FO : firstn (length new) (old_of k c) = streams k (v_acc c) (List.concat ps)).
    { rewrite OLD, firstn_app_ge, LP, Nat.sub_diag by lia. cbn. apply app_nil_r. }
    rewrite FO in *. rewrite VP in N.
    assert (DISJ : forall v, In v (List.concat ps) -> ~ In v (part ++ List.concat qs)).
    { clear -N. induction (List.concat ps) as [|x l IH]; intros v I J; [destruct I|]. cbn in N. apply NoDup_cons_iff in N as [N1 N2]. destruct I as [->|I]; [|eapply IH; eauto].
      apply N1. apply in_or_app. now right. }
    assert (NU : NoDup us).
    { eapply filled_NoDup; [exact U|eapply NoDup_app_remove_r; exact N|apply F|]. intros w v I J _ ->. apply (proj2 F v I). rewrite VP. apply in_or_app. now left. }
    split.
    + rewrite W. assert (Q : forall v, In v us -> ~ In v (part ++ List.concat qs)).
      { intros v I J. apply (filled_in _ _ _ _ U) in I as [I|[I _]]; [|exact (DISJ v I J)]. apply (proj2 F v I). rewrite VP. apply in_or_app. now right. }
      assert (NR : NoDup (part ++ List.concat qs)) by (eapply NoDup_app_remove_l; exact N).
      clear -NU NR Q. induction us as [|u us IH]; [exact NR|]. cbn. apply NoDup_cons_iff in NU as [N1 N2]. constructor.
      * intros I. apply in_app_or in I as [I|I]; [contradiction|]. apply (Q u); [now left|exact I].
      * apply IH; [exact N2|]. intros v I. apply Q. now right.
    + intros v I. rewrite W in I. apply in_app_or in I as [I|I].
      * apply (filled_in _ _ _ _ U) in I as [I|[I H]].
        -- rewrite (moved_access k _ _ _ _ MV1); [discriminate| |exact I]. intros u J. apply (kept_in _ _ _ _ KP) in J. apply J.
        -- rewrite MV3.
           ++ apply A. rewrite VP. apply in_or_app. now left.
           ++ intros J. apply (kept_in _ _ _ _ KP) in J as [_ J]. contradiction.
           ++ intros J. apply (proj2 F v J). rewrite VP. apply in_or_app. now left.
      * rewrite MV3.
        -- apply A. rewrite VP. apply in_or_app. now right.
        -- intros J. apply (kept_in _ _ _ _ KP) in J as [J _]. exact (DISJ v J I).
        -- intros J. apply (proj2 F v J). rewrite VP. apply in_or_app. now right.
Qed.
Print Assumptions C42_too_few_iff.
(** One variable is used up by the options; of two, the second takes the access of operand 2. *)
Example C42_too_few_case : let c := C42_example in
  consistent c /\ parts c = [[1; 5]; [2; 3]; []; [4]]%Z /\
  (exists c', substitute_inputs_in_cmd_invocation c [7%Z] = ((c', []), Raise IndexError) /\ consistent c' /\ vars c' = [1; 7; 2; 3; 4]%Z) /\
  (exists c', substitute_inputs_in_cmd_invocation c [7; 8]%Z = ((c', []), Raise IndexError) /\ ~ consistent c' /\ vars c' = [1; 7; 2; 3; 4]%Z /\ v_acc c' 2%Z = None).
Proof.
  assert (C : consistent C42_example).
  { split; [repeat constructor; cbn; lia|]. intros v I. cbn in I. destruct I as [<-|[<-|[<-|[<-|[<-|[]]]]]]; discriminate. }
  assert (K : kept (with_access C42_example STREAM_INPUT) (vars C42_example) [5; 2; 3]%Z).
  { unfold with_access. change (vars C42_example) with [1; 5; 2; 3; 4]%Z.
    apply kept_no; [discriminate|]. apply kept_yes; [reflexivity|]. apply kept_yes; [reflexivity|]. apply kept_yes; [reflexivity|]. apply kept_no; [discriminate|]. constructor. }
  cbv zeta. split; [exact C|]. split; [reflexivity|]. split.
  - eexists. split; [vm_compute; reflexivity|]. split; [|reflexivity].
    eapply (C42_too_few_iff STREAM_INPUT C42_example _ [7%Z]); [now left|exact C|exact K| |cbn; lia|vm_compute; reflexivity|].
    + split; [repeat constructor; intros []|]. intros w [<-|[]]. cbn. lia.
    + exists [[1; 5]%Z], [[2; 3]; []; [4]]%Z, [5%Z]. split; [reflexivity|]. split; [|reflexivity]. cbn. apply kept_no; [discriminate|]. apply kept_yes; [reflexivity|constructor].
  - eexists. split; [vm_compute; reflexivity|]. split; [|split; reflexivity]. intros (_ & X). apply (X 2%Z); [cbn; auto|reflexivity].
Qed.
