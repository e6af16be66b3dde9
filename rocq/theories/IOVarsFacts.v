(** * Facts about invocations with io variables *)
Require Import Verif.PyBase Verif.Access Verif.IOInfo Verif.IOVars Verif.SpecPara Verif.SpecVars.
From Coq Require Import Lia.

(** ** Access maps *)
Lemma am_set_eq m k a : am_set m k a k = Some a.
Proof. unfold am_set. now rewrite Z.eqb_refl. Qed.
Lemma am_set_ne m k a v : v <> k -> am_set m k a v = m v.
Proof. unfold am_set. destruct (Z.eqb_spec v k); congruence. Qed.
Lemma am_del_eq m k : am_del m k k = None.
Proof. unfold am_del. now rewrite Z.eqb_refl. Qed.
Lemma am_del_ne m k v : v <> k -> am_del m k v = m v.
Proof. unfold am_del. destruct (Z.eqb_spec v k); congruence. Qed.
Lemma access_eqb_eq a b : access_eqb a b = true <-> a = b.
Proof. destruct a, b; cbn; split; congruence. Qed.
Lemma access_eqb_refl a : access_eqb a a = true.
Proof. now apply access_eqb_eq. Qed.

(** ** Traversals as traversals of the list of variables *)
Fixpoint mapE (g : Z -> eff Z) (vs : list Z) : eff (list Z) :=
  match vs with
  | [] => ret []
  | v :: vs' => do! w := g v in do! ws := mapE g vs' in ret (w :: ws)
  end.
Lemma mapE_app g a : forall b e,
  mapE g (a ++ b) e = (do! x := mapE g a in do! y := mapE g b in ret (x ++ y)) e.
Proof.
  induction a as [|v a IH]; intros b e; cbn.
  - unfold ebind, ret. destruct (mapE g b e) as [e' [y|x]]; reflexivity.
  - unfold ebind. destruct (g v e) as [e1 [w|x]]; [|reflexivity]. rewrite IH. unfold ebind, ret.
    destruct (mapE g a e1) as [e2 [ws|x]]; [|reflexivity].
    destruct (mapE g b e2) as [e3 [us|x]]; reflexivity.
Qed.

Definition runs_as {A} (t : eff A) (n : eff (list Z)) (R : A -> list Z -> Prop) : Prop :=
  forall e, match n e with
            | (e', Ok ws) => exists a, t e = (e', Ok a) /\ R a ws
            | (e', Raise x) => t e = (e', Raise x)
            end.
Definition lift (g : Z -> eff Z) (el : pyval) : eff (list pyval) :=
  match el with PVar v => do! w := g v in ret [PVar w] | _ => ret [el] end.

Lemma lift_runs g x : runs_as (lift g x) (mapE g (var_of x))
  (fun l ws => exists y, l = [y] /\ blank y = blank x /\ var_of y = ws).
Proof.
  intros e. destruct x as [|v|s|r]; cbn; try (eexists; split; [reflexivity|]; eexists; repeat split).
  unfold ebind, ret. destruct (g v e) as [e1 [w|x]]; [|reflexivity].
  eexists. split; [reflexivity|]. exists (PVar w). repeat split.
Qed.
Definition varsl (l : list pyval) : list Z := flat_map var_of l.
Lemma varsl_app a b : varsl (a ++ b) = varsl a ++ varsl b.
Proof. apply flat_map_app. Qed.
Lemma vars_eq c : vars c = varsl (option_args (v_flags c)) ++ varsl (v_ops c) ++ var_of (v_in c) ++ var_of (v_out c).
Proof. unfold vars, slots. change (flat_map var_of) with varsl. rewrite !varsl_app. cbn. now rewrite app_nil_r. Qed.

Lemma loop_flags_runs g l : runs_as (loop_flags (lift g) l) (mapE g (varsl (option_args l)))
  (fun l' ws => map blank_flag l' = map blank_flag l /\ varsl (option_args l') = ws).
Proof.
  induction l as [|f l IH]; intros e.
  - cbn. eexists. repeat split.
  - assert (S : forall x, (forall a n, x <> FOptIO n a) ->
      match mapE g (varsl (option_args l)) e with
      | (e', Ok ws) => exists a, (do! l'' := loop_flags (lift g) l in ret (x :: l'')) e = (e', Ok a) /\
          map blank_flag a = map blank_flag (x :: l) /\ varsl (option_args a) = ws
      | (e', Raise y) => (do! l'' := loop_flags (lift g) l in ret (x :: l'')) e = (e', Raise y)
      end).
    { intros x N. specialize (IH e). destruct (mapE g _ e) as [e' [ws|y]]; unfold ebind.
      - destruct IH as (a & -> & A & B). eexists. split; [reflexivity|]. cbn [map]. rewrite A. split; [reflexivity|].
        destruct x; cbn; try exact B. now elim (N arg name).
      - now rewrite IH. }
    destruct f as [n|n a|n a]; [apply (S (FFlag n)); congruence|apply (S (FOptVar n a)); congruence|clear S].
    cbn [option_args flat_map]. change (flat_map _ l) with (option_args l). cbn [loop_flags app varsl flat_map].
    change (flat_map var_of) with varsl. rewrite mapE_app. unfold ebind.
    pose proof (lift_runs g a e) as L. destruct (mapE g (var_of a) e) as [e1 [ws|y]].
    + destruct L as (r & -> & y & -> & B & V). specialize (IH e1).
      destruct (mapE g (varsl (option_args l)) e1) as [e2 [us|z]].
      * destruct IH as (l' & -> & B' & V'). eexists. split; [reflexivity|]. cbn. rewrite B, B'. split; [reflexivity|].
        unfold varsl, option_args in *. cbn. now rewrite V, V'.
      * now rewrite IH.
    + now rewrite L.
Qed.
Lemma loop_ops_runs g l : runs_as (loop_ops (lift g) l) (mapE g (varsl l))
  (fun l' ws => map blank l' = map blank l /\ varsl l' = ws).
Proof.
  induction l as [|x l IH]; intros e.
  - cbn. eexists. repeat split.
  - cbn [loop_ops varsl flat_map]. change (flat_map var_of) with varsl. rewrite mapE_app. unfold ebind.
    pose proof (lift_runs g x e) as L. destruct (mapE g (var_of x) e) as [e1 [ws|y]].
    + destruct L as (r & -> & y & -> & B & V). specialize (IH e1).
      destruct (mapE g (varsl l) e1) as [e2 [us|z]].
      * destruct IH as (l' & -> & B' & V'). eexists. split; [reflexivity|]. cbn. rewrite B, B'. split; [reflexivity|].
        unfold varsl in *. cbn. now rewrite V, V'.
      * now rewrite IH.
    + now rewrite L.
Qed.
Lemma implicit_runs g x : runs_as (visit_implicit (lift g) x) (mapE g (var_of x))
  (fun y ws => blank y = blank x /\ var_of y = ws).
Proof.
  intros e. unfold visit_implicit, ebind. pose proof (lift_runs g x e) as L.
  destruct (mapE g (var_of x) e) as [e1 [ws|z]].
  - destruct L as (r & -> & y & -> & B & V). eexists. split; [reflexivity|]. auto.
  - now rewrite L.
Qed.

Lemma map_var_runs g c l :
  match mapE g (vars c) (v_acc c, l) with
  | ((m, l'), Ok ws) => exists c', map_var g (c, l) = ((c', l'), Ok tt) /\
      skeleton c' = skeleton c /\ vars c' = ws /\ v_acc c' = m
  | ((m, l'), Raise x) => exists c', map_var g (c, l) = ((c', l'), Raise x) /\
      skeleton c' = skeleton c /\ v_acc c' = m
  end.
Proof.
  rewrite vars_eq. unfold map_var. change (fun el => match el with PVar v => _ | _ => _ end) with (lift g).
  unfold flat_map_anything_non_names, then_, assign. cbn [fst].
  rewrite mapE_app. unfold ebind at 1.
  pose proof (loop_flags_runs g (v_flags c) (v_acc c, l)) as F.
  destruct (mapE g (varsl (option_args (v_flags c))) (v_acc c, l)) as [[m1 l1] [w1|x]].
  2:{ rewrite F. eexists. repeat split. }
  destruct F as (f' & -> & FB & FV). cbn [fst with_flags with_acc v_ops v_acc].
  unfold ebind at 1. rewrite mapE_app. unfold ebind at 1.
  pose proof (loop_ops_runs g (v_ops c) (m1, l1)) as O.
  destruct (mapE g (varsl (v_ops c)) (m1, l1)) as [[m2 l2] [w2|x]].
  2:{ rewrite O. eexists. split; [reflexivity|]. unfold skeleton. cbn. now rewrite FB. }
  destruct O as (o' & -> & OB & OV). cbn [fst with_ops with_acc v_in v_acc with_flags].
  unfold ebind at 1. rewrite mapE_app. unfold ebind at 1.
  pose proof (implicit_runs g (v_in c) (m2, l2)) as I.
  destruct (mapE g (var_of (v_in c)) (m2, l2)) as [[m3 l3] [w3|x]].
  2:{ rewrite I. eexists. split; [reflexivity|]. unfold skeleton. cbn. now rewrite FB, OB. }
  destruct I as (i' & -> & IB & IV). cbn [fst with_in with_ops with_acc v_out v_acc with_flags].
  unfold ebind at 1.
  pose proof (implicit_runs g (v_out c) (m3, l3)) as T.
  destruct (mapE g (var_of (v_out c)) (m3, l3)) as [[m4 l4] [w4|x]].
  2:{ rewrite T. eexists. split; [reflexivity|]. unfold skeleton. cbn. now rewrite FB, OB, IB. }
  destruct T as (t' & -> & TB & TV). eexists. split; [reflexivity|].
  split; [unfold skeleton; cbn; now rewrite FB, OB, IB, TB|]. split; [|reflexivity].
  rewrite vars_eq. cbn [v_flags v_ops v_in v_out with_flags with_ops with_in with_out with_acc].
  now rewrite FV, OV, IV, TV.
Qed.

(** ** Invocations are determined by skeleton, variables and accesses *)
Lemma blank_inj x y : blank x = blank y -> var_of x = var_of y -> x = y.
Proof. destruct x, y; cbn; congruence. Qed.
Lemma blank_length x y : blank x = blank y -> length (var_of x) = length (var_of y).
Proof. destruct x, y; cbn; congruence. Qed.
Lemma app_split {A} (a b a' b' : list A) : length a = length a' -> a ++ b = a' ++ b' -> a = a' /\ b = b'.
Proof.
  revert a'. induction a as [|x a IH]; intros [|x' a'] L E; cbn in *; try discriminate; [auto|].
  injection E as -> E. destruct (IH a' ltac:(lia) E) as [-> ->]. auto.
Qed.
Lemma ops_length l : forall l', map blank l = map blank l' -> length (varsl l) = length (varsl l').
Proof.
  induction l as [|x l IH]; intros [|y l'] E; cbn in *; try discriminate; [reflexivity|].
  injection E as B E. unfold varsl in *. cbn. rewrite !app_length, (IH l' E). now rewrite (blank_length x y B).
Qed.
Lemma ops_inj l : forall l', map blank l = map blank l' -> varsl l = varsl l' -> l = l'.
Proof.
  induction l as [|x l IH]; intros [|y l'] E V; cbn in *; try discriminate; [reflexivity|].
  injection E as B E. unfold varsl in *. cbn in V. apply app_split in V as [V V']; [|now apply blank_length].
  rewrite (blank_inj x y B V). f_equal. now apply IH.
Qed.
Lemma flags_args l : forall l', map blank_flag l = map blank_flag l' ->
  map blank (option_args l) = map blank (option_args l').
Proof.
  induction l as [|x l IH]; intros [|y l'] E; cbn in *; try discriminate; [reflexivity|].
  injection E as B E. specialize (IH l' E). destruct x, y; cbn in *; try discriminate; try exact IH.
  injection B as _ B. unfold option_args in *. congruence.
Qed.
Lemma flags_inj l : forall l', map blank_flag l = map blank_flag l' ->
  varsl (option_args l) = varsl (option_args l') -> l = l'.
Proof.
  induction l as [|x l IH]; intros [|y l'] E V; cbn in *; try discriminate; [reflexivity|].
  injection E as B E. destruct x, y; cbn in *; try discriminate.
  - rewrite (IH l' E V). congruence.
  - rewrite (IH l' E V). congruence.
  - injection B as -> B. unfold varsl in *. cbn in V. apply app_split in V as [V V']; [|now apply blank_length].
    rewrite (blank_inj _ _ B V). f_equal. now apply IH.
Qed.
Lemma skeleton_inj c c' : skeleton c = skeleton c' -> vars c = vars c' -> v_acc c = v_acc c' -> c = c'.
Proof.
  unfold skeleton. intros S. injection S as S1 S2 S3 S4 S5. rewrite !vars_eq. intros V A.
  apply app_split in V as [V1 V]; [|now apply ops_length, flags_args].
  apply app_split in V as [V2 V]; [|now apply ops_length].
  apply app_split in V as [V3 V4]; [|now apply blank_length].
  destruct c, c'; cbn in *. f_equal; auto using flags_inj, ops_inj, blank_inj.
Qed.

(** ** Substitution *)
Section subst.
Variable k : access.
Let p := fun a => access_eqb a k.
Notation sub := (substitute_fun p).

Lemma sub_hit (m : amap) v w l : m v = Some k -> sub v (m, w :: l) = ((am_set (am_del m v) w k, l), Ok w).
Proof.
  intros H. unfold substitute_fun, ebind, access_of. cbn [fst]. rewrite H. unfold p. rewrite access_eqb_refl.
  cbn. unfold replace_var_consistently. cbn [fst]. rewrite H. unfold ebind, pop_access. cbn [fst]. now rewrite H.
Qed.
Lemma sub_none (m : amap) v : m v = Some k -> sub v (m, []) = ((m, []), Raise IndexError).
Proof.
  intros H. unfold substitute_fun, ebind, access_of. cbn [fst]. rewrite H. unfold p. now rewrite access_eqb_refl.
Qed.
Lemma sub_miss (m : amap) v l a : m v = Some a -> a <> k -> sub v (m, l) = ((m, l), Ok v).
Proof.
  intros H N. unfold substitute_fun, ebind, access_of. cbn [fst]. rewrite H. unfold p.
  destruct (access_eqb a k) eqn:E; [|reflexivity]. apply access_eqb_eq in E. congruence.
Qed.

(** the accesses after replacing [old] by [new] one after the other *)
Fixpoint shift (m : amap) (old new : list Z) : amap :=
  match old, new with
  | v :: old', w :: new' => shift (am_set (am_del m v) w k) old' new'
  | _, _ => m
  end.
Definition streams (m : amap) (vs : list Z) : list Z :=
  filter (fun v => match m v with Some a => p a | None => false end) vs.
Lemma streams_kept m vs : kept (fun v => m v = Some k) vs (streams m vs).
Proof.
  unfold streams. induction vs as [|v vs IH]; cbn; [constructor|].
  destruct (m v) as [a|] eqn:E.
  - unfold p at 1. destruct (access_eqb a k) eqn:B.
    + apply access_eqb_eq in B. apply kept_yes; [congruence|exact IH].
    + apply kept_no; [|exact IH]. intros X. injection (eq_trans (eq_sym E) X) as ->. now rewrite access_eqb_refl in B.
  - apply kept_no; [congruence|exact IH].
Qed.
Lemma streams_ext m m' vs : (forall v, In v vs -> m' v = m v) -> streams m' vs = streams m vs.
Proof.
  intros H. unfold streams. induction vs as [|v vs IH]; cbn; [reflexivity|].
  rewrite (H v) by (now left). rewrite IH; [reflexivity|]. intros u I. apply H. now right.
Qed.
Lemma filled_ext P Q vs new us : (forall v, In v vs -> (P v <-> Q v)) -> filled P vs new us -> filled Q vs new us.
Proof.
  intros H F. induction F as [|v w l new l' A F IH|v l new l' A F IH]; constructor.
  - apply H; [now left|exact A].
  - apply IH. intros u I. apply H. now right.
  - rewrite <- H; [exact A|now left].
  - apply IH. intros u I. apply H. now right.
Qed.

Definition apart (m : amap) (vs new : list Z) : Prop := forall w v, In w new -> In v vs -> m v <> Some k -> w <> v.

Lemma run_sub vs : forall (m : amap) new us rest,
  NoDup vs -> (forall v, In v vs -> m v <> None) -> apart m vs new ->
  filled (fun v => m v = Some k) vs new us ->
  mapE sub vs (m, new ++ rest) = ((shift m (streams m vs) new, rest), Ok us).
Proof.
  induction vs as [|v vs IH]; intros m new us rest N A D F.
  - inversion F; subst. reflexivity.
  - apply NoDup_cons_iff in N as [Nv N]. cbn [mapE]. unfold ebind at 1. unfold streams. cbn [filter].
    inversion F as [|v0 w l new0 l' Hv F'|v0 l new0 l' Hv F']; subst.
    + rewrite Hv. change (p k) with (access_eqb k k). rewrite access_eqb_refl. cbn [shift app].
      rewrite (sub_hit m v w (new0 ++ rest) Hv).
      set (m1 := am_set (am_del m v) w k).
      assert (E : forall u, In u vs -> m1 u = m u).
      { intros u I. unfold m1. destruct (Z.eq_dec u w) as [->|NE].
        - rewrite am_set_eq. destruct (m w) as [b|] eqn:B.
          + destruct (access_eqb b k) eqn:BK; [apply access_eqb_eq in BK; congruence|].
            exfalso. refine (D w w _ _ _ eq_refl); [now left|now right|].
            rewrite B. intros X. injection X as ->. now rewrite access_eqb_refl in BK.
          + exfalso. refine (D w w _ _ _ eq_refl); [now left|now right|congruence].
        - rewrite am_set_ne by exact NE. apply am_del_ne. intros ->. contradiction. }
      specialize (IH m1 new0 l' rest N). cbv beta iota. unfold ebind. rewrite IH.
      * rewrite (streams_ext m m1 vs E). reflexivity.
      * intros u I. rewrite E by exact I. apply A. now right.
      * intros x u Ix Iu Hu. rewrite E in Hu by exact Iu. apply D; [now right|now right|exact Hu].
      * eapply filled_ext; [|exact F']. intros u I. now rewrite E.
    + destruct (m v) as [a|] eqn:B; [|now elim (A v (or_introl eq_refl))].
      assert (a <> k) by congruence.
      rewrite (sub_miss m v (new ++ rest) a B H). cbv beta iota. unfold ebind.
      rewrite (IH m new l' rest N); auto.
      * change (p a) with (access_eqb a k). destruct (access_eqb a k) eqn:X; [apply access_eqb_eq in X; contradiction|]. reflexivity.
      * intros u I. apply A. now right.
      * intros x u Ix Iu. apply D; [exact Ix|now right].
Qed.

Lemma run_few vs : forall (m : amap) new,
  NoDup vs -> (forall v, In v vs -> m v <> None) -> apart m vs new -> length new < length (streams m vs) ->
  exists m', mapE sub vs (m, new) = ((m', []), Raise IndexError).
Proof.
  induction vs as [|v vs IH]; intros m new N A D L; [cbn in L; lia|].
  apply NoDup_cons_iff in N as [Nv N]. cbn [mapE]. unfold ebind at 1. unfold streams in L. cbn [filter] in L.
  destruct (m v) as [a|] eqn:B; [|now elim (A v (or_introl eq_refl))].
  destruct (p a) eqn:P.
  - apply access_eqb_eq in P as ->. destruct new as [|w new].
    + rewrite (sub_none m v B). eauto.
    + rewrite (sub_hit m v w new B). set (m1 := am_set (am_del m v) w k).
      assert (E : forall u, In u vs -> m1 u = m u).
      { intros u I. unfold m1. destruct (Z.eq_dec u w) as [->|NE].
        - rewrite am_set_eq. destruct (m w) as [b|] eqn:B'.
          + destruct (access_eqb b k) eqn:BK; [apply access_eqb_eq in BK; congruence|].
            exfalso. refine (D w w _ _ _ eq_refl); [now left|now right|].
            rewrite B'. intros X. injection X as ->. now rewrite access_eqb_refl in BK.
          + exfalso. refine (D w w _ _ _ eq_refl); [now left|now right|congruence].
        - rewrite am_set_ne by exact NE. apply am_del_ne. intros ->. contradiction. }
      destruct (IH m1 new N) as (m' & X).
      * intros u I. rewrite E by exact I. apply A. now right.
      * intros x u Ix Iu Hu. rewrite E in Hu by exact Iu. apply D; [now right|now right|exact Hu].
      * rewrite (streams_ext m m1 vs E). cbn [length] in L. unfold streams. lia.
      * cbv beta iota. unfold ebind. rewrite X. eauto.
  - rewrite (sub_miss m v new a B).
    + destruct (IH m new N) as (m' & X); auto.
      * intros u I. apply A. now right.
      * intros x u Ix Iu. apply D; [exact Ix|now right].
      * cbv beta iota. unfold ebind. rewrite X. eauto.
    + intros ->. unfold p in P. now rewrite access_eqb_refl in P.
Qed.

Lemma shift_moved old : forall (m : amap) new, (forall v, In v old -> m v = Some k) -> NoDup old -> NoDup new ->
  no_capture old new -> moved old new m (shift m old new).
Proof.
  induction old as [|v old IH]; intros m new H N Nn C.
  - inversion C; subst. repeat split; auto. intros v [].
  - inversion C as [|v0 w old0 new0 Hw C']; subst. apply NoDup_cons_iff in N as [Nv N]. apply NoDup_cons_iff in Nn as [Nw Nn].
    cbn [shift]. set (m1 := am_set (am_del m v) w k).
    assert (E : forall u, In u old -> m1 u = m u).
    { intros u I. unfold m1. rewrite am_set_ne by (intros ->; contradiction). apply am_del_ne. intros ->. contradiction. }
    destruct (IH m1 new0) as (F & X & Y); auto.
    { intros u I. rewrite E by exact I. apply H. now right. }
    split; [|split].
    + constructor.
      * rewrite Y by assumption. unfold m1. rewrite am_set_eq. symmetry. apply H. now left.
      * set (s := shift m1 old new0) in *. clearbody s. clear -F E. induction F as [|a b l l' P F IHF]; constructor.
        -- rewrite P. apply E. now left.
        -- apply IHF. intros u I. apply E. now right.
    + intros u [<-|I] J.
      * rewrite Y; [|exact Nv|now intros Z; apply J; right]. unfold m1. rewrite am_set_ne.
        -- apply am_del_eq.
        -- intros ->. apply J. now left.
      * apply X; [exact I|]. intros Z. apply J. now right.
    + intros u I J. rewrite Y.
      * unfold m1. rewrite am_set_ne by (intros ->; apply J; now left). apply am_del_ne. intros ->. apply I. now left.
      * intros Z. apply I. now right.
      * intros Z. apply J. now right.
Qed.
Lemma shift_none old : forall m new u, m u = None -> ~ In u new -> shift m old new u = None.
Proof.
  induction old as [|v old IH]; intros m [|w new] u H N; cbn; auto. apply IH.
  - rewrite am_set_ne by (intros ->; apply N; now left). unfold am_del. now rewrite H; destruct (Z.eqb u v).
  - intros I. apply N. now right.
Qed.
Lemma shift_popped old : forall m new u, length old = length new -> In u old -> ~ In u new -> shift m old new u = None.
Proof.
  induction old as [|v old IH]; intros m [|w new] u L I N; cbn in *; try easy.
  destruct I as [->|I].
  - apply shift_none; [|tauto]. rewrite am_set_ne by (intros ->; tauto). apply am_del_eq.
  - apply IH; auto.
Qed.
Lemma shift_capture old : forall (m : amap) new, length old = length new -> NoDup new ->
  (forall w, In w new -> shift m old new w <> None) -> no_capture old new.
Proof.
  induction old as [|v old IH]; intros m [|w new] L N H; cbn in L; try discriminate; constructor.
  - intros I. apply NoDup_cons_iff in N as [Nw N]. apply (H w (or_introl eq_refl)). cbn. apply shift_popped; auto.
  - apply NoDup_cons_iff in N as [Nw N]. apply (IH (am_set (am_del m v) w k)); auto. intros u I. apply H. now right.
Qed.
End subst.

(** ** filled *)
Lemma filled_length P l new l' : filled P l new l' -> forall old, kept P l old -> length old = length new.
Proof.
  induction 1 as [|v w l new l' A F IH|v l new l' A F IH]; intros old K; inversion K; subst; cbn; auto; contradiction.
Qed.
Lemma kept_length_filled P l old : kept P l old -> forall new, length new = length old -> exists l', filled P l new l'.
Proof.
  induction 1 as [|v l old H K IH|v l old H K IH]; intros new L.
  - destruct new; [|discriminate]. exists []. constructor.
  - destruct new as [|w new]; [discriminate|]. destruct (IH new) as [l' F]; [cbn in L; lia|]. exists (w :: l'). now constructor.
  - destruct (IH new L) as [l' F]. exists (v :: l'). now constructor.
Qed.
Lemma filled_in P l new l' : filled P l new l' -> forall v, In v l' <-> In v new \/ (In v l /\ ~ P v).
Proof.
  induction 1 as [|v w l new l' A F IH|v l new l' A F IH]; intros u; cbn; [tauto| |].
  - rewrite IH. split; [tauto|]. intros [[->|B]|[[->|B] C]]; tauto.
  - rewrite IH. split; [intros [->|[B|B]]; tauto|]. intros [B|[[->|B] C]]; tauto.
Qed.
Lemma filled_NoDup P l new l' : filled P l new l' -> NoDup l -> NoDup new ->
  (forall w v, In w new -> In v l -> ~ P v -> w <> v) -> NoDup l'.
Proof.
  induction 1 as [|v w l new l' A F IH|v l new l' A F IH]; intros N Nn D; [constructor| |].
  - apply NoDup_cons_iff in N as [Nv N]. apply NoDup_cons_iff in Nn as [Nw Nn]. constructor.
    + rewrite (filled_in _ _ _ _ F). intros [I|[I J]]; [contradiction|].
      apply (D w w); [now left|now right|exact J|reflexivity].
    + apply IH; auto. intros x u I J. apply D; now right.
  - apply NoDup_cons_iff in N as [Nv N]. constructor.
    + rewrite (filled_in _ _ _ _ F). intros [I|[I J]]; [|contradiction].
      apply (D v v); [exact I|now left|exact A|reflexivity].
    + apply IH; auto. intros x u I J. apply D; auto. now right.
Qed.
Lemma filled_apart P l new l' : filled P l new l' -> NoDup l' -> forall w v, In w new -> In v l -> ~ P v -> w <> v.
Proof.
  induction 1 as [|v w l new l' A F IH|v l new l' A F IH]; intros N x u Ix Iu Pu E; subst.
  - destruct Iu.
  - apply NoDup_cons_iff in N as [Nw N]. destruct Iu as [->|Iu]; [contradiction|]. destruct Ix as [->|Ix].
    + apply Nw. rewrite (filled_in _ _ _ _ F). tauto.
    + now apply (IH N u u).
  - apply NoDup_cons_iff in N as [Nv N]. destruct Iu as [->|Iu].
    + apply Nv. rewrite (filled_in _ _ _ _ F). tauto.
    + now apply (IH N u u).
Qed.
Lemma kept_fun {A} (P : A -> Prop) l a : kept P l a -> forall b, kept P l b -> a = b.
Proof.
  induction 1 as [|v l a H K IH|v l a H K IH]; intros b K'; inversion K'; subst; try contradiction; auto.
  f_equal. auto.
Qed.
Lemma filled_fun P l new a : filled P l new a -> forall b, filled P l new b -> a = b.
Proof.
  induction 1 as [|v w l new l' A F IH|v l new l' A F IH]; intros b K'; inversion K'; subst; try contradiction; auto;
    f_equal; auto.
Qed.
