(** * Facts about mappers and aggregators *)
Require Import Verif.PyBase Verif.JsonData Verif.Parser Verif.Access Verif.IOInfo Verif.IOVars
  Verif.Transformers Verif.ParaTypes Verif.MapperAgg Verif.SpecPara Verif.SpecVars Verif.SpecMapper
  Verif.ParaProps Verif.IOVarsFacts Verif.IOVarsProps Verif.P_IOVars.
From Coq Require Import Lia.
Local Open Scope Z_scope.

Lemma base_mapper_spec s orig base : mapper_base s orig base <-> base = base_mapper s orig.
Proof.
  unfold base_mapper. split.
  - intros [K|b K N1 N2 F O I U A].
    + now rewrite K.
    + rewrite K, <- F, <- O, <- I, <- U, <- A. destruct b as [n f o i u a]; cbn in *.
      destruct (ms_cmd_name s); [rewrite (N1 _ eq_refl)|rewrite (N2 eq_refl)]; reflexivity.
  - intros ->. destruct (ms_kind s) eqn:K; [now constructor|]. apply mb_custom; auto; intros; cbn.
    + now rewrite H.
    + now rewrite H.
Qed.

Lemma kept_none {A} (P : A -> Prop) l : kept P l [] -> forall x, In x l -> ~ P x.
Proof. intros K x I X. apply (kept_in _ _ _ x K). tauto. Qed.
Lemma filled_nil_eq P l l' : filled P l [] l' -> l' = l.
Proof. intros F. remember [] as new eqn:E. induction F; subst; [reflexivity|discriminate|]. f_equal. auto. Qed.
Lemma filled_one P l i i' l' : NoDup l -> kept P l [i] -> filled P l [i'] l' ->
  l' = map (fun v => if Z.eqb v i then i' else v) l.
Proof.
  intros N K F. remember [i'] as new eqn:E. revert K. induction F as [|v w l new l' Pv F IH|v l new l' Pv F IH]; intros K.
  - reflexivity.
  - injection E as -> ->. inversion K as [|? ? ? _ K'|? ? ? NP _]; subst; [|contradiction]. cbn. rewrite Z.eqb_refl. f_equal.
    rewrite (filled_nil_eq _ _ _ F). apply NoDup_cons_iff in N as [Ni _]. clear -Ni. induction l as [|x l IH]; [reflexivity|]. cbn.
    destruct (Z.eqb_spec x i) as [->|_]; [elim Ni; now left|]. f_equal. apply IH. intros I. apply Ni. now right.
  - inversion K as [|? ? ? P' _|? ? ? _ K']; subst; [contradiction|]. apply NoDup_cons_iff in N as [_ N]. cbn.
    destruct (Z.eqb_spec v i) as [->|_].
    + exfalso. apply Pv. apply (kept_in _ _ _ i K'). now left.
    + f_equal. auto.
Qed.

Lemma mapper_both base i o i' o' : consistent base ->
  kept (with_access base STREAM_INPUT) (vars base) [i] -> kept (with_access base STREAM_OUTPUT) (vars base) [o] ->
  fresh_for base [i'; o'] ->
  exists c, substitute_inputs_and_outputs base [i'] [o'] = (c, Ok tt) /\ skeleton c = skeleton base /\
    vars c = map (renamed i i' o o') (vars base) /\
    v_acc c i' = Some STREAM_INPUT /\ v_acc c o' = Some STREAM_OUTPUT /\ v_acc c i = None /\ v_acc c o = None /\
    (forall v, ~ In v [i; o; i'; o'] -> v_acc c v = v_acc base v).
Proof.
  intros C KI KO F. destruct (C34_both base [i] [o] [i'] [o'] C KI KO F eq_refl eq_refl)
    as (c1 & c & R & S & F1 & M1 & K1 & F2 & M2).
  destruct (proj1 (kept_in _ _ _ i KI) (or_introl eq_refl)) as [Ii Ai].
  destruct (proj1 (kept_in _ _ _ o KO) (or_introl eq_refl)) as [Io Ao].
  destruct F as [N F]. assert (Nio : i' <> o') by (apply NoDup_cons_iff in N as [N _]; cbn in N; intuition).
  assert (Di : ~ In i' (vars base)) by (apply F; now left). assert (Do : ~ In o' (vars base)) by (apply F; right; now left).
  assert (NE : i' <> i /\ i' <> o /\ o' <> i /\ o' <> o /\ i <> o).
  { unfold with_access in *. repeat split; intros ->; try contradiction. congruence. }
  destruct NE as (N1 & N2 & N3 & N4 & N5).
  destruct M1 as (A1 & B1 & D1). destruct M2 as (A2 & B2 & D2).
  inversion A1 as [|? ? ? ? E1 _]; subst. inversion A2 as [|? ? ? ? E2 _]; subst.
  pose proof (filled_one _ _ _ _ _ (proj1 C) KI F1) as V1.
  assert (N' : NoDup (vars c1)).
  { apply (filled_NoDup _ _ _ _ F1 (proj1 C)).
    - repeat constructor. intros [].
    - intros w v [<-|[]] I _ ->. contradiction. }
  pose proof (filled_one _ _ _ _ _ N' K1 F2) as V2.
  exists c. split; [exact R|]. split; [exact S|]. split; [|repeat split].
  - rewrite V2, V1, map_map. apply map_ext_in. intros v I. unfold renamed.
    destruct (Z.eqb_spec v i) as [->|].
    + destruct (Z.eqb_spec i' o); [contradiction|reflexivity].
    + reflexivity.
  - rewrite D2; [rewrite E1; exact Ai|cbn; intuition|cbn; intuition].
  - rewrite E2. rewrite D1; [exact Ao|cbn; intuition|cbn; intuition].
  - rewrite D2; [apply B1; cbn; intuition|cbn; intuition|cbn; intuition].
  - apply B2; cbn; intuition.
  - intros v H. cbn in H. rewrite D2, D1; cbn; intuition.
Qed.

Lemma subst_outcome k c new : consistent c -> fresh_for c new ->
  (exists c', subst_of k (c, new) = ((c', []), Ok tt) /\ length new = length (old_of k c) /\ consistent c' /\
     skeleton c' = skeleton c /\ filled (with_access c k) (vars c) new (vars c') /\ moved (old_of k c) new (v_acc c) (v_acc c')) \/
  (exists c' l e, subst_of k (c, new) = ((c', l), Raise e) /\ (e = IndexError \/ e = AssertionError) /\
     length new <> length (old_of k c)).
Proof.
  intros C F. destruct (Nat.lt_trichotomy (length new) (length (old_of k c))) as [L|[L|L]].
  - right. destruct (substitute_few k c new C (fresh_apart k c new F) L) as (c1 & R & _).
    do 3 eexists. split; [exact R|]. split; [auto|lia].
  - left. destruct (substitute_fresh k c new C F L) as (c1 & R & S & Fi & M). exists c1. split; [exact R|]. split; [exact L|].
    split; [exact (proj1 (substitute_keeps k c new c1 [] F R) C)|auto].
  - right. set (n1 := firstn (length (old_of k c)) new). set (n2 := skipn (length (old_of k c)) new).
    assert (X : new = n1 ++ n2) by (symmetry; apply firstn_skipn).
    destruct (kept_length_filled _ _ _ (old_kept k c) n1) as [us U].
    { unfold n1. rewrite firstn_length. lia. }
    assert (D : apart k (v_acc c) (vars c) n1).
    { intros w v I J Q. apply (fresh_apart k c new F w v); auto. rewrite X. apply in_or_app. now left. }
    destruct (substitute_runs k c n1 us n2 C D U) as (c1 & R1 & _). rewrite <- X in R1.
    assert (length n2 > 0)%nat by (unfold n2; rewrite skipn_length; lia).
    exists c1, n2, AssertionError. split; [rewrite R1; destruct n2; [cbn in *; lia|reflexivity]|]. split; [auto|lia].
Qed.

(** ** Popping and registering *)
Lemma pop_operands_ok ops : forall (m : amap), NoDup ops -> (forall v, In v ops -> m v <> None) ->
  exists m' : amap, pop_operands (map PVar ops) m = Ok m' /\
    (forall v, In v ops -> m' v = None) /\ (forall v, ~ In v ops -> m' v = m v).
Proof.
  induction ops as [|u ops IH]; intros m N A; cbn [map pop_operands].
  - exists m. repeat split; auto. intros v [].
  - apply NoDup_cons_iff in N as [Nu N]. destruct (m u) eqn:E; [|now elim (A u (or_introl eq_refl))].
    destruct (IH (am_del m u) N) as (m' & R & P & Q).
    { intros v I. rewrite am_del_ne; [apply A; now right|]. intros ->. contradiction. }
    exists m'. split; [exact R|]. split.
    + intros v [<-|I]; [|auto]. rewrite Q by exact Nu. apply am_del_eq.
    + intros v H. rewrite Q by (intros I; apply H; now right). apply am_del_ne. intros ->. apply H. now left.
Qed.
Lemma pop_operands_inv ops : forall (m m' : amap), pop_operands ops m = Ok m' ->
  exists vs, ops = map PVar vs /\ NoDup vs /\ forall v, In v vs -> m v <> None.
Proof.
  induction ops as [|x ops IH]; intros m m' R; cbn in R.
  - exists []. repeat split; [constructor|intros v []].
  - destruct x as [|v| |]; try discriminate. destruct (m v) eqn:E; [|discriminate].
    apply IH in R as (vs & -> & N & A). exists (v :: vs). split; [reflexivity|]. split.
    + constructor; [|exact N]. intros I. apply A in I. now rewrite am_del_eq in I.
    + intros w [<-|I]; [congruence|]. apply A in I. destruct (Z.eq_dec w v) as [->|NE].
      * now rewrite am_del_eq in I.
      * now rewrite am_del_ne in I.
Qed.
Lemma pop_operands_raises ops : forall (m : amap) e, pop_operands ops m = Raise e -> e = KeyError \/ e = AssertionError.
Proof.
  induction ops as [|x ops IH]; intros m e R; cbn in R; [discriminate|].
  destruct x as [|v| |]; try (injection R as <-; auto; fail).
  destruct (m v); [eauto|]. injection R as <-; auto.
Qed.
Lemma am_of_in ids a : forall (m : amap) v, In v ids -> am_of ids a m v = Some a.
Proof.
  unfold am_of. induction ids as [|x ids IH]; intros m v I; [destruct I|]. cbn.
  destruct (in_dec Z.eq_dec v ids) as [J|J]; [now apply IH|]. destruct I as [->|I]; [|contradiction].
  clear IH. revert m. assert (G : forall (m : amap), m v = Some a -> fold_left (fun m k => am_set m k a) ids m v = Some a).
  { induction ids as [|y ids IH]; intros m E; [exact E|]. cbn. apply IH.
    - intros K. apply J. now right.
    - unfold am_set. now destruct (Z.eqb v y). }
  intros m. apply G. apply am_set_eq.
Qed.
Lemma am_of_out ids a : forall (m : amap) v, ~ In v ids -> am_of ids a m v = m v.
Proof.
  unfold am_of. induction ids as [|x ids IH]; intros m v I; [reflexivity|]. cbn. rewrite IH by (intros K; apply I; now right).
  apply am_set_ne. intros ->. apply I. now left.
Qed.
Lemma register_ok ids : forall (m : amap), NoDup ids -> (forall v, In v ids -> m v = None) ->
  exists m' : amap, register_inputs ids m = Ok m' /\
    (forall v, In v ids -> m' v = Some STREAM_INPUT) /\ (forall v, ~ In v ids -> m' v = m v).
Proof.
  induction ids as [|x ids IH]; intros m N A; cbn [register_inputs].
  - exists m. repeat split; auto. intros v [].
  - apply NoDup_cons_iff in N as [Nx N]. rewrite (A x (or_introl eq_refl)).
    destruct (IH (am_set m x STREAM_INPUT) N) as (m' & R & P & Q).
    { intros v I. rewrite am_set_ne; [apply A; now right|]. intros ->. contradiction. }
    exists m'. split; [exact R|]. split.
    + intros v [<-|I]; [|auto]. rewrite Q by exact Nx. apply am_set_eq.
    + intros v H. rewrite Q by (intros I; apply H; now right). apply am_set_ne. intros ->. apply H. now left.
Qed.
Lemma register_inv ids : forall (m m' : amap), register_inputs ids m = Ok m' -> NoDup ids /\ forall v, In v ids -> m v = None.
Proof.
  induction ids as [|x ids IH]; intros m m' R; cbn in R.
  - split; [constructor|intros v []].
  - destruct (m x) eqn:E; [discriminate|]. apply IH in R as [N A]. split.
    + constructor; [|exact N]. intros I. apply A in I. now rewrite am_set_eq in I.
    + intros v [<-|I]; [exact E|]. apply A in I. destruct (Z.eq_dec v x) as [->|NE]; [exact E|]. now rewrite am_set_ne in I.
Qed.
Lemma register_raises ids : forall (m : amap) e, register_inputs ids m = Raise e -> e = AssertionError.
Proof.
  induction ids as [|x ids IH]; intros m e R; cbn in R; [discriminate|]. destruct (m x); [now injection R as <-|eauto].
Qed.

Lemma NoDup_app_disj {A} (a b : list A) : NoDup a -> NoDup b -> (forall x, In x a -> In x b -> False) -> NoDup (a ++ b).
Proof.
  induction a as [|x a IH]; intros Na Nb D; [exact Nb|]. apply NoDup_cons_iff in Na as [Nx Na]. cbn. constructor.
  - intros I. apply in_app_or in I as [I|I]; [contradiction|]. apply (D x); [now left|exact I].
  - apply IH; auto. intros y I J. apply (D y); [now right|exact J].
Qed.
Lemma NoDup_app_disjoint' {A} (a b : list A) x : NoDup (a ++ b) -> In x a -> In x b -> False.
Proof.
  intros N I J. apply in_split in I as (a1 & a2 & ->). rewrite <- app_assoc in N. apply NoDup_remove_2 in N. apply N.
  rewrite !in_app_iff. tauto.
Qed.
(** ** Aggregators by flag transformation *)
Lemma vars_with_ops_out c ids o : v_out c = PVar o ->
  vars (with_ops (map PVar ids) c) = varsl (option_args (v_flags c)) ++ ids ++ var_of (v_in c) ++ [o].
Proof.
  intros E. rewrite vars_eq. cbn [v_flags v_ops v_in v_out with_ops]. rewrite E.
  assert (X : varsl (map PVar ids) = ids) by (induction ids as [|x l IH]; [reflexivity|]; cbn; now f_equal).
  now rewrite X.
Qed.

(** What is left after removing the streaming inputs and setting the operands *)
Lemma agg_prepare orig flags :
  let c0 := with_flags flags orig in
  consistent c0 -> (forall x, In x (option_args flags) -> ~ has orig STREAM_INPUT x) ->
  exists c1, remove_streaming_inputs c0 = (c1, Ok tt) /\ v_cmd c1 = v_cmd orig /\ v_flags c1 = flags /\
    emptied orig STREAM_INPUT (v_in orig) (v_in c1) /\ emptied orig STREAM_INPUT (v_out orig) (v_out c1) /\
    (forall v, streaming_input c0 v -> v_acc c1 v = None) /\
    (forall v, ~ streaming_input c0 v -> v_acc c1 v = v_acc orig v).
Proof.
  intros c0 C H. destruct (remove_ok STREAM_INPUT c0 C) as (c1 & R & A).
  - intros x I. exact (H x I).
  - destruct A as (A1 & A2 & _ & A4 & A5 & A6 & A7 & A8). exists c1. split; [exact R|].
    repeat split; auto. intros v [I E]. now apply A7.
Qed.

Lemma agg_transformer_ok k t orig ids o a out :
  let flags := transform t (v_flags orig) in
  let c0 := with_flags flags orig in
  takes k (length ids) -> consistent c0 -> (forall x, In x (option_args flags) -> ~ has orig STREAM_INPUT x) ->
  NoDup ids -> (forall v, In v ids -> v_acc orig v = None \/ streaming_input c0 v) ->
  v_out orig = PVar o -> v_acc orig o = Some a -> a <> STREAM_INPUT ->
  exists c, get_aggregator_transformer k t orig ids out = Ok (Some (k, c)) /\
    v_cmd c = v_cmd orig /\ v_flags c = flags /\ v_ops c = map PVar ids /\
    emptied orig STREAM_INPUT (v_in orig) (v_in c) /\ v_out c = PVar out /\
    v_acc c out = Some a /\
    (forall v, v <> out -> v = o -> v_acc c v = None) /\
    (forall v, v <> out -> v <> o -> In v ids -> v_acc c v = Some STREAM_INPUT) /\
    (forall v, v <> out -> v <> o -> ~ In v ids -> streaming_input c0 v -> v_acc c v = None) /\
    (forall v, v <> out -> v <> o -> ~ In v ids -> ~ streaming_input c0 v -> v_acc c v = v_acc orig v).
Proof.
  intros flags c0 T C H N I O A NA.
  destruct (agg_prepare orig flags C H) as (c1 & R1 & P1 & P2 & P3 & P4 & P5 & P6).
  unfold get_aggregator_transformer.
  assert (AC : arity_check k ids = Ok tt).
  { destruct T as [T1 T2]. destruct k; cbn; auto; [rewrite T1|rewrite T2]; auto. }
  rewrite AC. cbn [bind]. cbv zeta. fold flags. fold c0. fold c0 in R1, P5, P6. rewrite R1. cbn [finished bind].
  assert (NO : ~ streaming_input c0 o) by (intros [_ E]; change (v_acc c0 o) with (v_acc orig o) in E; congruence).
  assert (O1 : v_out c1 = PVar o).
  { destruct P4 as [[(w & E & X) _]|[_ E]]; [|congruence]. rewrite O in E. injection E as <-. congruence. }
  destruct (register_ok ids (v_acc c1) N) as (m & R2 & Q1 & Q2).
  { intros v J. destruct (I v J) as [E|S]; [|now apply P5].
    destruct (v_acc c1 v) eqn:Z; [|reflexivity]. rewrite P6 in Z; [congruence|]. intros [_ E2].
    change (v_acc c0 v) with (v_acc orig v) in E2. congruence. }
  cbn [v_acc with_ops]. rewrite R2. cbn [bind]. set (c2 := with_acc m (with_ops (map PVar ids) c1)).
  assert (IO : ~ In o ids) by (intros J; destruct (I o J); [congruence|contradiction]).
  assert (V2 : vars c2 = varsl (option_args flags) ++ ids ++ var_of (v_in c1) ++ [o]).
  { change (vars c2) with (vars (with_ops (map PVar ids) c1)). rewrite (vars_with_ops_out c1 ids o O1). now rewrite P2. }
  assert (VO : forall v, In v (varsl (option_args flags)) -> v_acc orig v <> None /\ ~ streaming_input c0 v).
  { intros v J. split.
    - apply (proj2 C). rewrite vars_eq. apply in_or_app. now left.
    - intros [_ E]. apply in_flat_map in J as (x & J & K). apply (H x J). destruct x; try destruct K; [subst|contradiction].
      exists v. split; [reflexivity|exact E]. }
  assert (VI : forall v, In v (var_of (v_in c1)) -> v_in orig = PVar v /\ v_acc orig v <> None /\ ~ streaming_input c0 v).
  { intros v J. destruct P3 as [[_ E]|[NH E]]; rewrite E in J; [destruct J|].
    destruct (v_in orig) as [|w| |] eqn:W; try destruct J; [subst w|contradiction]. split; [reflexivity|]. split.
    - apply (proj2 C). rewrite vars_eq. change (v_in c0) with (v_in orig). rewrite W. apply in_or_app; right. apply in_or_app; right. now left.
    - intros [_ E2]. apply NH. exists v. auto. }
  pose proof (proj1 C) as NC. rewrite vars_eq in NC.
  change (v_flags c0) with flags in NC. change (v_ops c0) with (v_ops orig) in NC. change (v_in c0) with (v_in orig) in NC.
  change (v_out c0) with (v_out orig) in NC. rewrite O in NC.
  assert (N2 : NoDup (vars c2)).
  { rewrite V2. apply NoDup_app_disj.
    - eapply NoDup_app_remove_r; exact NC.
    - apply NoDup_app_disj; [exact N| |].
      + apply NoDup_app_remove_l in NC. apply NoDup_app_remove_l in NC.
        destruct P3 as [[_ ->]|[_ ->]]; [repeat constructor; intros []|exact NC].
      + intros v J K. apply in_app_or in K as [K|[<-|[]]]; [|contradiction].
        destruct (VI v K) as (_ & X & Y). destruct (I v J); contradiction.
    - intros v J K. destruct (VO v J) as [X Y]. apply in_app_or in K as [K|K].
      + destruct (I v K); contradiction.
      + revert NC J K VI. clear -P3. intros NC J K VI. apply in_app_or in K as [K|K].
        * destruct (VI v K) as (E & _ & _). rewrite E in NC. eapply NoDup_app_disjoint'; [exact NC|exact J|].
          apply in_or_app; right. now left.
        * eapply NoDup_app_disjoint'; [exact NC|exact J|]. apply in_or_app; right. apply in_or_app; now right. }
  assert (A2 : v_acc c2 o = Some a).
  { change (v_acc c2 o) with (m o). rewrite Q2 by exact IO. now rewrite P6. }
  assert (J2 : In o (vars c2)).
  { rewrite V2. do 3 (apply in_or_app; right). now left. }
  destruct (replace_once c2 o out a N2 J2 A2) as (c & R3 & S3 & V3 & A3).
  change (v_out c2) with (v_out c1). rewrite O1, R3. cbn [finished bind].
  exists c. split; [reflexivity|].
  assert (X : c = mkCiv (v_cmd orig) flags (map PVar ids) (v_in c1) (PVar out) (am_set (am_del m o) out a)).
  { apply skeleton_inj.
    - rewrite S3. unfold skeleton, c2. cbn [v_cmd v_flags v_ops v_in v_out with_acc with_ops]. rewrite O1. now rewrite P1, P2.
    - rewrite V3, V2, vars_eq. cbn [v_flags v_ops v_in v_out].
      assert (Y : varsl (map PVar ids) = ids) by (clear; induction ids as [|x l IH]; [reflexivity|]; cbn; now f_equal).
      rewrite Y, !map_app. rewrite V2 in N2. 
      assert (Zn : forall l, ~ In o l -> map (swap o out) l = l).
      { clear. induction l as [|x l IH]; intros H; [reflexivity|]. cbn. unfold swap at 1.
        destruct (Z.eqb_spec x o) as [->|_]; [elim H; now left|]. f_equal. apply IH. intros J. apply H. now right. }
      rewrite !app_assoc in N2. apply NoDup_remove_2 in N2. rewrite app_nil_r in N2.
      rewrite (Zn (varsl _)), (Zn ids), (Zn (var_of _)); [cbn [map]; unfold swap; rewrite Z.eqb_refl; reflexivity| | |]; intros K; apply N2; rewrite !in_app_iff; tauto.
    - exact A3. }
  subst c. cbn [v_cmd v_flags v_ops v_in v_out v_acc]. repeat split; auto.
  - apply am_set_eq.
  - intros v NE ->. rewrite am_set_ne by exact NE. apply am_del_eq.
  - intros v NE NE2 J. rewrite am_set_ne, am_del_ne by assumption. now apply Q1.
  - intros v NE NE2 J S. rewrite am_set_ne, am_del_ne by assumption. rewrite Q2 by exact J. now apply P5.
  - intros v NE NE2 J S. rewrite am_set_ne, am_del_ne by assumption. rewrite Q2 by exact J. now apply P6.
Qed.

(** Dropping options keeps an invocation consistent. *)
Lemma kept_args P l l' : kept P l l' -> forall rest, NoDup (varsl (option_args l) ++ rest) ->
  NoDup (varsl (option_args l') ++ rest) /\ forall v, In v (varsl (option_args l')) -> In v (varsl (option_args l)).
Proof.
  assert (H : forall x l, varsl (option_args (x :: l)) = varsl (option_args [x]) ++ varsl (option_args l)).
  { intros x l0. unfold varsl, option_args. cbn [flat_map]. rewrite app_nil_r. apply flat_map_app. }
  induction 1 as [|x l l' Px K IH|x l l' Px K IH]; intros rest N.
  - split; auto.
  - rewrite H in N. rewrite <- app_assoc in N. destruct (IH rest (NoDup_app_remove_l _ _ N)) as [A B].
    rewrite (H x l), (H x l'). split; [|intros v I; apply in_app_or in I as [I|I]; apply in_or_app; auto].
    rewrite <- app_assoc. apply NoDup_app_disj; [eapply NoDup_app_remove_r; exact N|exact A|].
    intros v I J. apply (NoDup_app_disjoint' _ _ v N I). apply in_app_or in J as [J|J]; apply in_or_app; auto.
  - rewrite H in N. rewrite <- app_assoc in N. destruct (IH rest (NoDup_app_remove_l _ _ N)) as [A B].
    split; [exact A|]. intros v I. rewrite H. apply in_or_app. auto.
Qed.
Lemma kept_consistent P orig order n : kept P (v_flags orig) order -> consistent orig ->
  consistent (with_flags (order ++ [FFlag n]) orig).
Proof.
  intros K [N A].
  assert (E : option_args (order ++ [FFlag n]) = option_args order)
    by (unfold option_args; rewrite flat_map_app; cbn; apply app_nil_r).
  rewrite vars_eq in N. destruct (kept_args _ _ _ K _ N) as [N' B]. split.
  - rewrite vars_eq. cbn [v_flags v_ops v_in v_out with_flags]. rewrite E. exact N'.
  - intros v I. apply A. rewrite vars_eq in *. cbn [v_flags v_ops v_in v_out with_flags] in I. rewrite E in I.
    apply in_app_or in I as [I|I]; apply in_or_app; auto.
Qed.

(** ** Aggregators by strings *)
Lemma only_flags_iff l l' : only_flags l = Ok l' <-> flags_only l l'.
Proof.
  unfold only_flags, flags_only. revert l'. induction l as [|x l IH]; intros l'; cbn.
  - split; [intros E; injection E as <-; constructor|intros E; inversion E; reflexivity].
  - destruct x as [n|n a]; cbn.
    + destruct (map_result _ l) as [l0|e] eqn:R; cbn.
      * split.
        -- intros E. injection E as <-. constructor; [eauto|]. now apply IH.
        -- intros E. inversion E as [|? y ? l1 (m & E1 & E2) F]; subst. injection E1 as <-. apply IH in F. congruence.
      * split; [discriminate|]. intros E. inversion E as [|? y ? l1 _ F]; subst. apply IH in F. discriminate.
    + split; [discriminate|]. intros E. inversion E as [|? y ? l1 (m & E1 & _) F]; discriminate.
Qed.
Lemma flags_only_args l l' : flags_only l l' -> option_args l' = [].
Proof. induction 1 as [|x y l l' (n & -> & ->) F IH]; [reflexivity|exact IH]. Qed.

(** ** Without implicit output *)
Lemma remove_keeps_no_output c : v_out c = PNone ->
  snd (remove_streaming_inputs c) = Ok tt -> v_out (fst (remove_streaming_inputs c)) = PNone.
Proof.
  intros O. unfold remove_streaming_inputs, remove_streaming, flat_map_anything_non_names, then_, assign. cbn [fst].
  destruct (loop_flags _ _ _) as [[m1 l1] [x1|e1]]; cbn; [|discriminate].
  destruct (loop_ops _ _ _) as [[m2 l2] [x2|e2]]; cbn; [|discriminate].
  destruct (visit_implicit _ _ _) as [[m3 l3] [x3|e3]]; cbn; [|discriminate].
  rewrite O. cbn. reflexivity.
Qed.
