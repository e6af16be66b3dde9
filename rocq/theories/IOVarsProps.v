(** * Methods of invocations with io variables *)
Require Import Verif.PyBase Verif.Access Verif.IOInfo Verif.IOVars Verif.SpecPara Verif.SpecVars Verif.ParaProps Verif.IOVarsFacts.
From Coq Require Import Lia.

Definition old_of (k : access) (c : civ) : list Z := streams k (v_acc c) (vars c).
Lemma old_kept k c : kept (with_access c k) (vars c) (old_of k c).
Proof. apply streams_kept. Qed.
Lemma old_in k c v : In v (old_of k c) <-> In v (vars c) /\ v_acc c v = Some k.
Proof. apply (kept_in _ _ _ _ (old_kept k c)). Qed.
Lemma kept_NoDup {A} (P : A -> Prop) l l' : kept P l l' -> NoDup l -> NoDup l'.
Proof.
  induction 1 as [|x l l' H K IH|x l l' H K IH]; intros N; [constructor| |]; apply NoDup_cons_iff in N as [Nx N]; auto.
  constructor; [|auto]. rewrite (kept_in _ _ _ _ K). tauto.
Qed.

(** ** Substitution *)
Definition subst_of (k : access) : method unit := substitute (fun a => access_eqb a k).

Lemma substitute_runs k c new us rest : consistent c -> apart k (v_acc c) (vars c) new ->
  filled (with_access c k) (vars c) new us ->
  exists c', subst_of k (c, new ++ rest) =
      ((c', rest), match rest with [] => Ok tt | _ => Raise AssertionError end) /\
    skeleton c' = skeleton c /\ vars c' = us /\ v_acc c' = shift k (v_acc c) (old_of k c) new.
Proof.
  intros [N A] D F. pose proof (run_sub k (vars c) (v_acc c) new us rest N A D F) as R.
  pose proof (map_var_runs (substitute_fun (fun a => access_eqb a k)) c (new ++ rest)) as M. rewrite R in M.
  destruct M as (c' & M & S & V & B). exists c'. split; [|auto].
  unfold subst_of, substitute, then_. rewrite M. cbn. now destruct rest.
Qed.
Lemma substitute_few k c new : consistent c -> apart k (v_acc c) (vars c) new -> length new < length (old_of k c) ->
  exists c', subst_of k (c, new) = ((c', []), Raise IndexError) /\ skeleton c' = skeleton c.
Proof.
  intros [N A] D L. destruct (run_few k (vars c) (v_acc c) new N A D L) as [m' R].
  pose proof (map_var_runs (substitute_fun (fun a => access_eqb a k)) c new) as M. rewrite R in M.
  destruct M as (c' & M & S & V). exists c'. split; [|auto].
  unfold subst_of, substitute, then_. now rewrite M.
Qed.

Lemma fresh_apart k c new : fresh_for c new -> apart k (v_acc c) (vars c) new.
Proof. intros [_ H] w v I J _ ->. now apply (H v). Qed.
Lemma fresh_capture k c new : fresh_for c new -> length new = length (old_of k c) -> no_capture (old_of k c) new.
Proof.
  intros [_ H] L. assert (I : forall v, In v (old_of k c) -> In v (vars c)) by (intros v J; now apply old_in in J).
  revert new H L. induction (old_of k c) as [|v old IH]; intros [|w new] H L; cbn in L; try discriminate; constructor.
  - intros J. apply (H w (or_introl eq_refl)). apply I. now right.
  - apply IH; auto.
    + intros u J. apply I. now right.
    + intros u J. apply H. now right.
Qed.

Lemma substitute_fresh k c new : consistent c -> fresh_for c new -> length new = length (old_of k c) ->
  exists c', subst_of k (c, new) = ((c', []), Ok tt) /\ skeleton c' = skeleton c /\
    filled (with_access c k) (vars c) new (vars c') /\ moved (old_of k c) new (v_acc c) (v_acc c').
Proof.
  intros C F L. destruct (kept_length_filled _ _ _ (old_kept k c) new L) as [us U].
  destruct (substitute_runs k c new us [] C (fresh_apart k c new F) U) as (c' & R & S & V & A).
  rewrite app_nil_r in R. exists c'. rewrite V, A. repeat split; auto; apply shift_moved;
    try (intros v I; now apply old_in in I); try apply F; try now apply fresh_capture.
  all: eapply kept_NoDup; [apply old_kept|apply C].
Qed.

(** consistency of the result *)
Lemma moved_consistent k c c' new : consistent c -> NoDup new -> apart k (v_acc c) (vars c) new ->
  filled (with_access c k) (vars c) new (vars c') -> moved (old_of k c) new (v_acc c) (v_acc c') -> consistent c'.
Proof.
  intros [N A] Nn D F (M1 & M2 & M3). split.
  - eapply filled_NoDup; eauto.
  - intros v I. rewrite (filled_in _ _ _ _ F) in I. destruct (in_dec Z.eq_dec v new) as [J|J].
    + clear -M1 J. assert (H : forall u, In u (old_of k c) -> v_acc c u = Some k) by (intros u I; now apply old_in in I).
      induction M1 as [|a b l l' P M1 IH]; [destruct J|]. destruct J as [->|J].
      * rewrite P, H by (now left). discriminate.
      * apply IH; [exact J|]. intros u I. apply H. now right.
    + destruct I as [I|[I P]]; [contradiction|]. rewrite M3; [now apply A| |exact J]. rewrite old_in. unfold with_access in P. tauto.
Qed.
Lemma moved_tight k c c' new : tight c ->
  filled (with_access c k) (vars c) new (vars c') -> moved (old_of k c) new (v_acc c) (v_acc c') ->
  forall v, v_acc c' v <> None -> In v (vars c').
Proof.
  intros [_ T] F (M1 & M2 & M3) v H. rewrite (filled_in _ _ _ _ F).
  destruct (in_dec Z.eq_dec v new) as [J|J]; [now left|right].
  destruct (in_dec Z.eq_dec v (old_of k c)) as [O|O]; [now elim H; apply M2|].
  rewrite M3 in H by assumption. specialize (T v H). split; [exact T|]. intros X. apply O, old_in. auto.
Qed.

(** ** Queries *)
Lemma pure_unchanged (f : pyval -> eff (list pyval)) :
  (forall x e, fst (fst (f x e)) = fst e /\ forall y, snd (f x e) = Ok y -> y = [x]) ->
  forall c l, fst (fst (flat_map_anything_non_names f (c, l))) = c.
Proof.
  intros H.
  assert (HF : forall fl e, fst (fst (loop_flags f fl e)) = fst e /\ forall y, snd (loop_flags f fl e) = Ok y -> y = fl).
  { induction fl as [|x fl IH]; intros e; [cbn; split; [reflexivity|congruence]|].
    assert (S : fst (fst ((do! l'' := loop_flags f fl in ret (x :: l'')) e)) = fst e /\
              forall y, snd ((do! l'' := loop_flags f fl in ret (x :: l'')) e) = Ok y -> y = x :: fl).
    { unfold ebind, ret. specialize (IH e). destruct (loop_flags f fl e) as [e2 [r|z]]; cbn in *; destruct IH as [A B]; (split; [exact A|]).
      - intros y E. injection E as <-. now rewrite (B r eq_refl).
      - discriminate. }
    destruct x as [n|n a|n a]; [exact S|exact S|]. clear S. cbn. unfold ebind at 1. unfold ebind at 2.
    specialize (H a e). destruct (f a e) as [e1 [r|z]]; cbn in H; destruct H as [A B]; [|cbn; split; [exact A|discriminate]].
    specialize (B r eq_refl) as ->. unfold ebind, ret. specialize (IH e1).
    destruct (loop_flags f fl e1) as [e2 [r|z]]; cbn in *; destruct IH as [A' B']; rewrite A', A; (split; [reflexivity|]).
    - intros y E. injection E as <-. now rewrite (B' r eq_refl).
    - discriminate. }
  assert (HO : forall ol e, fst (fst (loop_ops f ol e)) = fst e /\ forall y, snd (loop_ops f ol e) = Ok y -> y = ol).
  { induction ol as [|a ol IH]; intros e; [cbn; split; [reflexivity|congruence]|]. cbn. unfold ebind at 1. unfold ebind at 2.
    specialize (H a e). destruct (f a e) as [e1 [r|z]]; cbn in H; destruct H as [A B]; [|cbn; split; [exact A|discriminate]].
    specialize (B r eq_refl) as ->. unfold ebind, ret. specialize (IH e1).
    destruct (loop_ops f ol e1) as [e2 [r|z]]; cbn in *; destruct IH as [A' B']; rewrite A', A; (split; [reflexivity|]).
    - intros y E. injection E as <-. now rewrite (B' r eq_refl).
    - discriminate. }
  assert (HI : forall x e, fst (fst (visit_implicit f x e)) = fst e /\ forall y, snd (visit_implicit f x e) = Ok y -> y = x).
  { intros x e. unfold visit_implicit, ebind. specialize (H x e). destruct (f x e) as [e1 [r|z]]; cbn in H; destruct H as [A B];
      [|cbn; split; [exact A|discriminate]].
    specialize (B r eq_refl) as ->. cbn. split; [exact A|congruence]. }
  assert (G : forall c l A (t : eff A) set (x : A), fst (fst (t (v_acc c, l))) = v_acc c ->
            (forall y, snd (t (v_acc c, l)) = Ok y -> y = x) -> set x c = c ->
            fst (fst (assign t set (c, l))) = c).
  { intros c l A t set x E1 E2 E3. unfold assign. destruct (t (v_acc c, l)) as [[m l'] [y|z]]; cbn in *.
    - rewrite (E2 y eq_refl), E1. destruct c; cbn in *. exact E3.
    - rewrite E1. now destruct c. }
  intros c l. unfold flat_map_anything_non_names, then_. cbn [fst].
  pose proof (G c l _ (loop_flags f (v_flags c)) with_flags (v_flags c)) as P1.
  destruct (assign (loop_flags f (v_flags c)) with_flags (c, l)) as [[c1 l1] [u1|x1]] eqn:E1; cbn [fst snd] in P1 |- *;
    rewrite P1; try apply HF; try (now destruct c).
  pose proof (G c l1 _ (loop_ops f (v_ops c)) with_ops (v_ops c)) as P2.
  destruct (assign (loop_ops f (v_ops c)) with_ops (c, l1)) as [[c2 l2] [u2|x2]] eqn:E2; cbn [fst snd] in P2 |- *;
    rewrite P2; try apply HO; try (now destruct c).
  pose proof (G c l2 _ (visit_implicit f (v_in c)) with_in (v_in c)) as P3.
  destruct (assign (visit_implicit f (v_in c)) with_in (c, l2)) as [[c3 l3] [u3|x3]] eqn:E3; cbn [fst snd] in P3 |- *;
    rewrite P3; try apply HI; try (now destruct c).
  apply (G c l3 _ (visit_implicit f (v_out c)) with_out (v_out c)); try apply HI. now destruct c.
Qed.

Lemma collect_unchanged p c : fst (collect p c) = c.
Proof.
  unfold collect. pose proof (pure_unchanged (lift (collect_fun p))) as U.
  assert (H : forall x e, fst (fst (lift (collect_fun p) x e)) = fst e /\
              forall y, snd (lift (collect_fun p) x e) = Ok y -> y = [x]).
  { intros x [m l]. destruct x as [|v|s|r]; cbn; try (split; [reflexivity|congruence]).
    unfold ebind, collect_fun, ebind, access_of. cbn. destruct (m v) as [a|]; cbn; [|split; [reflexivity|discriminate]].
    destruct (p a); cbn; (split; [reflexivity|congruence]). }
  specialize (U H c []). change (flat_map_anything_non_names (lift (collect_fun p))) with (map_var (collect_fun p)) in U.
  destruct (map_var (collect_fun p) (c, [])) as [[c' l] [u|x]]; exact U.
Qed.
Lemma run_collect p vs : forall (m : amap) l,
  (forall v, In v vs -> m v <> None) ->
  mapE (collect_fun p) vs (m, l) =
    ((m, l ++ filter (fun v => match m v with Some a => p a | None => false end) vs), Ok vs).
Proof.
  induction vs as [|v vs IH]; intros m l A; cbn; [now rewrite app_nil_r|].
  unfold ebind, collect_fun, ebind, access_of at 1. cbn. destruct (m v) as [a|] eqn:E; [|now elim (A v (or_introl eq_refl))].
  destruct (p a); cbn; fold (collect_fun p).
  - change (mapE (fun v0 : Z => _) vs) with (mapE (collect_fun p) vs). rewrite IH; [|intros u I; apply A; now right].
    now rewrite <- app_assoc.
  - change (mapE (fun v0 : Z => _) vs) with (mapE (collect_fun p) vs). rewrite IH; [reflexivity|intros u I; apply A; now right].
Qed.
Lemma run_collect_missing p vs : forall (m : amap) l, (exists v, In v vs /\ m v = None) ->
  exists l', mapE (collect_fun p) vs (m, l) = ((m, l'), Raise KeyError).
Proof.
  induction vs as [|v vs IH]; intros m l (u & I & E); [destruct I|]. cbn.
  unfold ebind at 1, collect_fun, ebind at 1, access_of at 1. cbn. destruct (m v) as [a|] eqn:X; [|eauto].
  destruct I as [->|I]; [congruence|].
  destruct (p a); cbn; change (mapE (fun v0 : Z => _) vs) with (mapE (collect_fun p) vs); unfold ebind;
    match goal with |- context [mapE _ _ (m, ?l1)] => destruct (IH m l1 (ex_intro _ u (conj I E))) as [l' H]; change (mapE (fun v0 : Z => _) vs) with (mapE (collect_fun p) vs); rewrite H; eauto end.
Qed.
Lemma filter_selected p c vs : kept (selected p c) vs (filter (fun v => match v_acc c v with Some a => p a | None => false end) vs).
Proof.
  apply filter_kept. intros v. unfold selected. destruct (v_acc c v) as [a|].
  - split; [eauto|intros (b & E & P); congruence].
  - split; [discriminate|intros (b & E & P); discriminate].
Qed.
Lemma collect_ok p c : (forall v, In v (vars c) -> v_acc c v <> None) ->
  exists l, collect p c = (c, Ok l) /\ kept (selected p c) (vars c) l.
Proof.
  intros A. eexists. split; [|apply filter_selected].
  pose proof (collect_unchanged p c) as U. unfold collect in *.
  pose proof (map_var_runs (collect_fun p) c []) as M. rewrite (run_collect p (vars c) (v_acc c) [] A) in M.
  destruct M as (c' & M & _). rewrite M in *. cbn in *. now rewrite U.
Qed.
Lemma collect_missing p c v : In v (vars c) -> v_acc c v = None -> collect p c = (c, Raise KeyError).
Proof.
  intros I E. pose proof (collect_unchanged p c) as U. unfold collect in *.
  pose proof (map_var_runs (collect_fun p) c []) as M.
  destruct (run_collect_missing p (vars c) (v_acc c) []) as [l' R]; [eauto|]. rewrite R in M.
  destruct M as (c' & M & _). rewrite M in *. cbn in *. now rewrite U.
Qed.

(** ** Removal *)
Lemma NoDup_app_remove_l {A} (a b : list A) : NoDup (a ++ b) -> NoDup b.
Proof. induction a as [|x a IH]; cbn; [auto|]. intros N. apply NoDup_cons_iff in N as [_ N]. auto. Qed.
Lemma NoDup_app_remove_r {A} (a b : list A) : NoDup (a ++ b) -> NoDup a.
Proof.
  induction a as [|x a IH]; cbn; [constructor|]. intros N. apply NoDup_cons_iff in N as [Nx N]. constructor; [|auto].
  intros I. apply Nx, in_or_app. now left.
Qed.
Section remove.
Variable k : access.
Let p := fun a => access_eqb a k.
Notation rem := (remove_fun p).

Definition kvar (m : amap) (x : pyval) : bool :=
  match x with PVar v => match m v with Some a => p a | None => false end | _ => false end.
Lemma kvar_iff (m : amap) x : kvar m x = true <-> exists v, x = PVar v /\ m v = Some k.
Proof.
  destruct x as [|v|s|r]; cbn; try (split; [discriminate|intros (v & E & _); discriminate]).
  destruct (m v) as [a|] eqn:E.
  - unfold p. rewrite access_eqb_eq. split; [intros ->; eauto|intros (u & X & Y); injection X as <-; congruence].
  - split; [discriminate|]. intros (u & X & Y). injection X as <-. congruence.
Qed.
Lemma rem_step x (m : amap) z : (forall v, x = PVar v -> m v <> None) ->
  exists m', rem x (m, z) = ((m', z), Ok (if kvar m x then [] else [x])) /\
    (forall v, x = PVar v -> m v = Some k -> m' v = None) /\
    (forall v, ~ (x = PVar v /\ m v = Some k) -> m' v = m v).
Proof.
  intros A. destruct x as [|v|s|r]; try (exists m; cbn; repeat split; auto; discriminate).
  unfold remove_fun, ebind, access_of. cbn. destruct (m v) as [a|] eqn:E; [|now elim (A v eq_refl)].
  unfold p. destruct (access_eqb a k) eqn:B.
  - apply access_eqb_eq in B as ->. unfold pop_access. cbn. rewrite E. eexists. split; [reflexivity|]. split.
    + intros u X _. injection X as <-. apply am_del_eq.
    + intros u X. apply am_del_ne. intros ->. apply X. auto.
  - exists m. split; [reflexivity|]. split; [|auto]. intros u X Y. injection X as <-. rewrite E in Y. injection Y as ->.
    now rewrite access_eqb_refl in B.
Qed.
Definition wiped (m m' : amap) (vs : list Z) : Prop :=
  (forall v, In v vs -> m v = Some k -> m' v = None) /\ (forall v, ~ (In v vs /\ m v = Some k) -> m' v = m v).
Lemma wiped_nil m : wiped m m [].
Proof. split; [intros v []|auto]. Qed.
Lemma wiped_app m m1 m2 a b : wiped m m1 a -> wiped m1 m2 b -> NoDup (a ++ b) -> wiped m m2 (a ++ b).
Proof.
  intros [A1 A2] [B1 B2] N.
  assert (D : forall v, In v a -> In v b -> False).
  { intros v I J. apply in_split in I as (x & y & ->). rewrite <- app_assoc in N. apply NoDup_remove_2 in N.
    apply N. rewrite !in_app_iff. auto. }
  split.
  - intros v I E. apply in_app_or in I as [I|I].
    + rewrite B2; [auto|]. intros [J _]. eauto.
    + apply B1; [exact I|]. rewrite A2; [exact E|]. intros [J _]. eauto.
  - intros v H. rewrite in_app_iff in H. rewrite B2.
    + apply A2. tauto.
    + intros [J E]. rewrite A2 in E by (intros [X _]; eauto). tauto.
Qed.
Lemma rem_agree (m m' : amap) a b : wiped m m' a -> NoDup (a ++ b) -> forall v, In v b -> m' v = m v.
Proof.
  intros [A1 A2] N v I. apply A2. intros [J _]. apply in_split in J as (x & y & ->). rewrite <- app_assoc in N.
  apply NoDup_remove_2 in N. apply N. rewrite !in_app_iff. auto.
Qed.
Lemma step_wiped x (m m' : amap) : (forall v, x = PVar v -> m v = Some k -> m' v = None) ->
    (forall v, ~ (x = PVar v /\ m v = Some k) -> m' v = m v) -> wiped m m' (var_of x).
Proof.
  intros A B. destruct x as [|u|s|r]; cbn.
  2:{ split.
      - intros v [<-|[]]. auto.
      - intros v H. apply B. intros [E F]. injection E as ->. apply H. split; [now left|exact F]. }
  all: split; [intros v []|intros v H; apply B; intros [E F]; discriminate E].
Qed.
Lemma rem_ops l : forall (m : amap) z, (forall v, In v (varsl l) -> m v <> None) -> NoDup (varsl l) ->
  exists m', loop_ops rem l (m, z) = ((m', z), Ok (filter (fun x => negb (kvar m x)) l)) /\ wiped m m' (varsl l).
Proof.
  induction l as [|x l IH]; intros m z A N; [exists m; split; [reflexivity|apply wiped_nil]|].
  change (varsl (x :: l)) with (var_of x ++ varsl l) in *. cbn [loop_ops filter]. unfold ebind at 1.
  destruct (rem_step x m z) as (m1 & R & B1 & B2).
  { intros v ->. apply A. now left. }
  pose proof (step_wiped x m m1 B1 B2) as W. rewrite R. cbv beta iota.
  pose proof (rem_agree m m1 _ _ W N) as G.
  destruct (IH m1 z) as (m2 & R2 & W2).
  { intros v I. rewrite G by exact I. apply A, in_or_app. now right. }
  { now apply NoDup_app_remove_l in N. }
  exists m2. split; [|now apply (wiped_app m m1 m2)].
  unfold ebind, ret. rewrite R2.
  assert (E : filter (fun x => negb (kvar m1 x)) l = filter (fun x => negb (kvar m x)) l).
  { apply filter_ext_in. intros y I. destruct y as [|v|s|r]; cbn; try reflexivity. rewrite G; [reflexivity|].
    apply in_flat_map. exists (PVar v). split; [exact I|now left]. }
  rewrite E. now destruct (kvar m x).
Qed.
Lemma rem_implicit x (m : amap) z : (forall v, x = PVar v -> m v <> None) ->
  exists m', visit_implicit rem x (m, z) = ((m', z), Ok (if kvar m x then PNone else x)) /\ wiped m m' (var_of x).
Proof.
  intros A. destruct (rem_step x m z A) as (m1 & R & B1 & B2). exists m1. split; [|now apply step_wiped].
  unfold visit_implicit, ebind. rewrite R. now destruct (kvar m x).
Qed.
Lemma rem_flags l : forall (m : amap) z, (forall v, In v (varsl (option_args l)) -> m v <> None) ->
  (forall x, In x (option_args l) -> kvar m x = false) -> loop_flags rem l (m, z) = ((m, z), Ok l).
Proof.
  induction l as [|f l IH]; intros m z A H; [reflexivity|].
  assert (S : forall g, (do! l'' := loop_flags rem l in ret (g :: l'')) (m, z) = ((m, z), Ok (g :: l)) \/
            (exists x, In x (option_args l) /\ kvar m x = true) \/ (exists v, In v (varsl (option_args l)) /\ m v = None)).
  { intros g. left. unfold ebind. rewrite IH; [reflexivity| |].
    - intros v I. apply A. destruct f as [n|n a|n a]; cbn; auto. unfold varsl. cbn. apply in_or_app. now right.
    - intros x I. apply H. destruct f as [n|n a|n a]; cbn; auto. }
  assert (S' : forall g, (do! l'' := loop_flags rem l in ret (g :: l'')) (m, z) = ((m, z), Ok (g :: l))).
  { intros g. destruct (S g) as [X|[(x & I & X)|(v & I & X)]]; [exact X| |]; exfalso.
    - rewrite H in X; [discriminate|]. destruct f as [n|n a|n a]; cbn; auto.
    - refine (A v _ X). destruct f as [n|n a|n a]; cbn; auto. unfold varsl. cbn. apply in_or_app. now right. }
  destruct f as [n|n a|n a]; [apply S'|apply S'|]. cbn [loop_flags]. unfold ebind at 1.
  assert (X : rem a (m, z) = ((m, z), Ok [a])).
  { assert (Y : kvar m a = false) by (apply H; now left).
    destruct a as [|v|s|r]; try reflexivity. unfold remove_fun, ebind, access_of. cbn in *.
    destruct (m v) as [b|] eqn:E; [now rewrite Y|]. elim (A v); [|exact E]. now left. }
  rewrite X. cbv beta iota. apply S'.
Qed.
Lemma rem_flags_fail l : forall (m : amap) z, (forall v, In v (varsl (option_args l)) -> m v <> None) ->
  forall x, In x (option_args l) -> kvar m x = true ->
  exists v, In (PVar v) (option_args l) /\ m v = Some k /\
    loop_flags rem l (m, z) = ((am_del m v, z), Raise ValueError).
Proof.
  induction l as [|f l IH]; intros m z A x I H; [destruct I|].
  assert (S : In x (option_args l) -> forall g, exists v, In (PVar v) (option_args l) /\ m v = Some k /\
     (do! l'' := loop_flags rem l in ret (g :: l'')) (m, z) = ((am_del m v, z), Raise ValueError)).
  { intros J g. destruct (IH m z) with (x := x) as (v & Iv & Ev & R); auto.
    - intros v Iv. apply A. destruct f as [n|n a|n a]; cbn; auto. unfold varsl. cbn. apply in_or_app. now right.
    - exists v. repeat split; auto. unfold ebind. now rewrite R. }
  destruct f as [n|n a|n a]; [now apply S|now apply S|]. cbn [loop_flags].
  destruct (kvar m a) eqn:Y.
  - apply kvar_iff in Y as (v & -> & E). exists v. split; [now left|]. split; [exact E|].
    unfold ebind at 1. unfold remove_fun, ebind, access_of. cbn. rewrite E. unfold p. rewrite access_eqb_refl.
    unfold pop_access. cbn. now rewrite E.
  - destruct I as [->|I]; [congruence|]. destruct (S I (FOptIO n a)) as (v & Iv & E & R). exists v. split; [now right|].
    split; [exact E|]. unfold ebind at 1.
    assert (X : rem a (m, z) = ((m, z), Ok [a])).
    { destruct a as [|u|s|r]; try reflexivity. unfold remove_fun, ebind, access_of. cbn in *.
      destruct (m u) as [b|] eqn:Eu; [now rewrite Y|]. elim (A u); [|exact Eu]. now left. }
    rewrite X. exact R.
Qed.

Lemma remove_ok c : consistent c -> (forall x, In x (option_args (v_flags c)) -> ~ has c k x) ->
  exists c', remove_streaming p c = (c', Ok tt) /\ removed k c c'.
Proof.
  intros [N A] F. rewrite vars_eq in N, A.
  unfold remove_streaming, flat_map_anything_non_names, then_, assign. cbn [fst].
  rewrite rem_flags.
  2:{ intros v I. apply A, in_or_app. now left. }
  2:{ intros x I. destruct (kvar (v_acc c) x) eqn:E; [|reflexivity]. apply kvar_iff in E. now elim (F x I). }
  cbn [fst with_flags with_acc v_ops v_acc].
  assert (N2 : NoDup (varsl (v_ops c) ++ var_of (v_in c) ++ var_of (v_out c))) by (eapply NoDup_app_remove_l; exact N).
  assert (A2 : forall v, In v (varsl (v_ops c) ++ var_of (v_in c) ++ var_of (v_out c)) -> v_acc c v <> None)
    by (intros v I; apply A, in_or_app; now right).
  destruct (rem_ops (v_ops c) (v_acc c) []) as (m1 & R1 & W1).
  { intros v I. apply A2, in_or_app. now left. }
  { eapply NoDup_app_remove_r; exact N2. }
  rewrite R1. cbn [fst with_ops with_flags with_acc v_in v_acc].
  pose proof (rem_agree _ _ _ _ W1 N2) as G1.
  destruct (rem_implicit (v_in c) m1 []) as (m2 & R2 & W2).
  { intros v E. rewrite G1; [|rewrite E; now left]. apply A2. rewrite E. apply in_or_app. right. now left. }
  rewrite R2. cbn [fst with_in with_ops with_flags with_acc v_out v_acc].
  assert (W12 : wiped (v_acc c) m2 (varsl (v_ops c) ++ var_of (v_in c))).
  { apply (wiped_app _ m1); auto. rewrite app_assoc in N2. eapply NoDup_app_remove_r; exact N2. }
  assert (N3 : NoDup ((varsl (v_ops c) ++ var_of (v_in c)) ++ var_of (v_out c))) by (now rewrite <- app_assoc).
  pose proof (rem_agree _ _ _ _ W12 N3) as G2.
  destruct (rem_implicit (v_out c) m2 []) as (m3 & R3 & W3).
  { intros v E. rewrite G2; [|rewrite E; now left]. apply A2. rewrite E. rewrite app_assoc. apply in_or_app. right. now left. }
  rewrite R3. cbn [fst with_in with_out with_ops with_flags with_acc v_out v_acc].
  pose proof (wiped_app _ _ _ _ _ W12 W3 N3) as W.
  eexists. split; [reflexivity|]. unfold removed. cbn [v_cmd v_flags v_ops v_in v_out v_acc with_in with_out with_ops with_flags with_acc].
  assert (KI : forall (m : amap) x, (forall v, x = PVar v -> m v = v_acc c v) -> emptied c k x (if kvar m x then PNone else x)).
  { intros m x E. unfold emptied, has. destruct (kvar m x) eqn:K.
    - left. split; [|reflexivity]. apply kvar_iff in K as (v & -> & K). exists v. split; [reflexivity|]. rewrite <- E; auto.
    - right. split; [|reflexivity]. intros (v & -> & X). enough (kvar m (PVar v) = true) by congruence.
      apply kvar_iff. exists v. split; [reflexivity|]. rewrite E; auto. }
  split; [reflexivity|]. split; [reflexivity|]. split; [exact F|]. split.
  { apply filter_kept. intros x. rewrite negb_true_iff. unfold has. rewrite <- kvar_iff. destruct (kvar (v_acc c) x); split; congruence. }
  split. { apply KI. intros v E. apply G1. rewrite E. now left. }
  split. { apply KI. intros v E. apply G2. rewrite E. now left. }
  destruct W as [WA WB]. rewrite <- app_assoc in WA, WB.
  assert (FV : forall v, In v (varsl (option_args (v_flags c))) -> v_acc c v <> Some k).
  { intros v I E. apply in_flat_map in I as (x & I & J). apply (F x I). exists v. split; [|exact E].
    destruct x as [|u|s|r]; cbn in J; try contradiction. destruct J as [->|[]]. reflexivity. }
  rewrite vars_eq. split.
  - intros v I E. apply in_app_or in I as [I|I]; [now elim (FV v I)|]. now apply WA.
  - intros v H. apply WB. intros [I E]. apply H. split; [apply in_or_app; now right|exact E].
Qed.
Lemma remove_fails c x : (forall v, In v (vars c) -> v_acc c v <> None) -> In x (option_args (v_flags c)) -> has c k x ->
  exists v, In (PVar v) (option_args (v_flags c)) /\ v_acc c v = Some k /\
    remove_streaming p c = (with_acc (am_del (v_acc c) v) c, Raise ValueError).
Proof.
  intros A I H. destruct (rem_flags_fail (v_flags c) (v_acc c) []) with (x := x) as (v & Iv & E & R); auto.
  - intros v J. apply A. rewrite vars_eq. apply in_or_app. now left.
  - now apply kvar_iff.
  - exists v. repeat split; auto. unfold remove_streaming, flat_map_anything_non_names, then_, assign. cbn [fst]. now rewrite R.
Qed.
End remove.

Lemma removed_vars k c c' : removed k c c' -> kept (fun v => v_acc c v <> Some k) (vars c) (vars c').
Proof.
  intros (_ & F & NF & O & I & T & _).
  assert (KA : forall a a' b b', kept (fun v => v_acc c v <> Some k) a a' -> kept (fun v => v_acc c v <> Some k) b b' ->
             kept (fun v => v_acc c v <> Some k) (a ++ b) (a' ++ b')).
  { intros a a' b b' K K'. induction K; cbn; [exact K'|now apply kept_yes|now apply kept_no]. }
  assert (KS : forall x, ~ has c k x -> kept (fun v => v_acc c v <> Some k) (var_of x) (var_of x)).
  { intros x H. destruct x; cbn; try constructor; [|constructor]. intros E. apply H. exists v. auto. }
  assert (KN : forall x, has c k x -> kept (fun v => v_acc c v <> Some k) (var_of x) []).
  { intros x (v & -> & E). cbn. apply kept_no; [tauto|constructor]. }
  assert (KE : forall x y, emptied c k x y -> kept (fun v => v_acc c v <> Some k) (var_of x) (var_of y)).
  { intros x y [[H ->]|[H ->]]; [now apply KN|now apply KS]. }
  rewrite !vars_eq, F. repeat apply KA.
  - induction (option_args (v_flags c)) as [|x l IH]; [constructor|]. unfold varsl. cbn. apply KA.
    + apply KS, NF. now left.
    + apply IH. intros y J. apply NF. now right.
  - induction O as [|x l l' H K IH|x l l' H K IH]; unfold varsl in *; cbn; [constructor| |].
    + apply KA; [now apply KS|exact IH].
    + change (flat_map var_of l') with ([] ++ flat_map var_of l'). apply KA; [|exact IH].
      destruct x as [|v|s|r]; cbn; [constructor| |constructor|constructor]. apply kept_no; [|constructor].
      intros E. apply H. intros (u & X & Y). injection X as <-. contradiction.
  - now apply KE.
  - now apply KE.
Qed.

(** ** Replacing one variable *)
Section replace.
Variables f t : Z.
Let g := fun el : Z => if Z.eqb el f then replace_var_consistently f t else ret el.
Definition swap (v : Z) : Z := if Z.eqb v f then t else v.

Lemma g_other v e : v <> f -> g v e = (e, Ok v).
Proof. intros N. unfold g. destruct (Z.eqb_spec v f); [contradiction|reflexivity]. Qed.
Lemma g_same (m : amap) l a : m f = Some a -> g f (m, l) = ((am_set (am_del m f) t a, l), Ok t).
Proof.
  intros E. unfold g. rewrite Z.eqb_refl. unfold replace_var_consistently. cbn [fst]. rewrite E.
  unfold ebind, pop_access. cbn [fst]. now rewrite E.
Qed.
Lemma g_missing (m : amap) l : m f = None -> g f (m, l) = ((m, l), Raise AssertionError).
Proof. intros E. unfold g. rewrite Z.eqb_refl. unfold replace_var_consistently. cbn [fst]. now rewrite E. Qed.

Lemma rep_absent vs : forall e, ~ In f vs -> mapE g vs e = (e, Ok vs).
Proof.
  induction vs as [|v vs IH]; intros e N; [reflexivity|]. cbn [mapE]. unfold ebind at 1. rewrite g_other.
  - unfold ebind. rewrite IH; [reflexivity|]. intros I. apply N. now right.
  - intros ->. apply N. now left.
Qed.
Lemma rep_once vs : forall (m : amap) l a, m f = Some a -> In f vs -> NoDup vs ->
  mapE g vs (m, l) = ((am_set (am_del m f) t a, l), Ok (map swap vs)).
Proof.
  induction vs as [|v vs IH]; intros m l a E I N; [destruct I|]. apply NoDup_cons_iff in N as [Nv N].
  cbn [mapE map]. unfold ebind at 1. unfold swap at 1. destruct (Z.eqb_spec v f) as [->|NE].
  - rewrite (g_same m l a E). cbv beta iota. unfold ebind. rewrite rep_absent by exact Nv.
    assert (X : map swap vs = vs).
    { rewrite <- (map_id vs) at 2. apply map_ext_in. intros u J. unfold swap. destruct (Z.eqb_spec u f); [subst; contradiction|reflexivity]. }
    now rewrite X.
  - rewrite g_other by exact NE. cbv beta iota. unfold ebind. destruct I as [I|I]; [contradiction|]. now rewrite (IH m l a E I N).
Qed.
Lemma rep_missing vs : forall (m : amap) l, m f = None -> In f vs -> mapE g vs (m, l) = ((m, l), Raise AssertionError).
Proof.
  induction vs as [|v vs IH]; intros m l E I; [destruct I|]. cbn [mapE]. unfold ebind at 1.
  destruct (Z.eq_dec v f) as [->|NE]; [now rewrite g_missing|]. rewrite g_other by exact NE. cbv beta iota. unfold ebind.
  destruct I as [I|I]; [contradiction|]. now rewrite IH.
Qed.
Lemma rep_twice a : forall b c (m : amap) l, t <> f -> exists e', mapE g (a ++ f :: b ++ f :: c) (m, l) = (e', Raise AssertionError).
Proof.
  induction a as [|v a IH]; intros b c m l N; cbn [mapE app]; unfold ebind at 1.
  - destruct (m f) as [x|] eqn:E.
    + rewrite (g_same m l x E). cbv beta iota. unfold ebind. rewrite rep_missing.
      * eauto.
      * rewrite am_set_ne by congruence. apply am_del_eq.
      * apply in_or_app. right. now left.
    + rewrite g_missing by exact E. eauto.
  - destruct (Z.eq_dec v f) as [->|NE].
    + destruct (m f) as [x|] eqn:E; [|rewrite g_missing by exact E; eauto].
      rewrite (g_same m l x E). cbv beta iota. unfold ebind.
      rewrite rep_missing; [eauto| |apply in_or_app; right; now left]. rewrite am_set_ne by congruence. apply am_del_eq.
    + rewrite g_other by exact NE. cbv beta iota. unfold ebind. destruct (IH b c m l N) as [e' ->]. eauto.
Qed.
End replace.

Lemma replace_absent c f t : ~ In f (vars c) -> replace_var c (PVar f) t = (c, Ok tt).
Proof.
  intros N. unfold replace_var.
  pose proof (map_var_runs (fun el : Z => if Z.eqb el f then replace_var_consistently f t else ret el) c []) as M.
  rewrite rep_absent in M by exact N. destruct M as (c' & -> & S & V & A). f_equal. symmetry. apply skeleton_inj; congruence.
Qed.
Lemma replace_none c t : replace_var c PNone t = (c, Ok tt).
Proof.
  unfold replace_var. change (map_var _ (c, [])) with (map_var ret (c, [])). pose proof (map_var_runs ret c []) as M.
  assert (R : forall vs (e : env), mapE ret vs e = (e, Ok vs)).
  { induction vs as [|v vs IH]; intros e; [reflexivity|]. cbn. unfold ebind. cbn. now rewrite IH. }
  rewrite R in M. destruct M as (c' & -> & S & V & A). f_equal. symmetry. apply skeleton_inj; congruence.
Qed.
Lemma replace_once c f t a : NoDup (vars c) -> In f (vars c) -> v_acc c f = Some a ->
  exists c', replace_var c (PVar f) t = (c', Ok tt) /\ skeleton c' = skeleton c /\
    vars c' = map (swap f t) (vars c) /\ v_acc c' = am_set (am_del (v_acc c) f) t a.
Proof.
  intros N I E. unfold replace_var.
  pose proof (map_var_runs (fun el : Z => if Z.eqb el f then replace_var_consistently f t else ret el) c []) as M.
  rewrite (rep_once f t (vars c) (v_acc c) [] a E I N) in M. destruct M as (c' & -> & S & V & A). eauto.
Qed.
Lemma replace_missing c f t : In f (vars c) -> v_acc c f = None ->
  exists c', replace_var c (PVar f) t = (c', Raise AssertionError).
Proof.
  intros I E. unfold replace_var.
  pose proof (map_var_runs (fun el : Z => if Z.eqb el f then replace_var_consistently f t else ret el) c []) as M.
  rewrite (rep_missing f t (vars c) (v_acc c) [] E I) in M. destruct M as (c' & -> & _). eauto.
Qed.
Lemma replace_twice c f t x y z : vars c = x ++ f :: y ++ f :: z -> t <> f ->
  exists c', replace_var c (PVar f) t = (c', Raise AssertionError).
Proof.
  intros V N. unfold replace_var.
  pose proof (map_var_runs (fun el : Z => if Z.eqb el f then replace_var_consistently f t else ret el) c []) as M.
  rewrite V in M. destruct (rep_twice f t x y z (v_acc c) [] N) as [[m l] R]. rewrite R in M. destruct M as (c' & -> & _). eauto.
Qed.

(** ** Histories *)
Lemma substitute_success k c new c' l : consistent c -> fresh_for c new -> subst_of k (c, new) = ((c', l), Ok tt) ->
  l = [] /\ skeleton c' = skeleton c /\
  filled (with_access c k) (vars c) new (vars c') /\ moved (old_of k c) new (v_acc c) (v_acc c').
Proof.
  intros C F R. destruct (lt_eq_lt_dec (length new) (length (old_of k c))) as [[L|L]|L].
  - destruct (substitute_few k c new C (fresh_apart k c new F) L) as (c1 & R1 & _). rewrite R1 in R. discriminate.
  - destruct (substitute_fresh k c new C F L) as (c1 & R1 & S & X & M). rewrite R1 in R. injection R as <- <-. auto.
  - exfalso. set (n1 := firstn (length (old_of k c)) new). set (n2 := skipn (length (old_of k c)) new).
    assert (E : new = n1 ++ n2) by (symmetry; apply firstn_skipn).
    destruct (kept_length_filled _ _ _ (old_kept k c) n1) as [us U].
    { unfold n1. rewrite firstn_length. lia. }
    assert (D : apart k (v_acc c) (vars c) n1).
    { intros w v I J K. apply (fresh_apart k c new F w v); auto. rewrite E. apply in_or_app. now left. }
    destruct (substitute_runs k c n1 us n2 C D U) as (c1 & R1 & _). rewrite <- E in R1. rewrite R1 in R.
    assert (length n2 > 0) by (unfold n2; rewrite skipn_length; lia). destruct n2; [cbn in *; lia|discriminate].
Qed.
Lemma substitute_keeps k c new c' l : fresh_for c new -> subst_of k (c, new) = ((c', l), Ok tt) ->
  (consistent c -> consistent c') /\ (tight c -> tight c').
Proof.
  intros F R. assert (H : consistent c -> consistent c').
  { intros C. destruct (substitute_success k c new c' l C F R) as (_ & _ & X & M).
    apply (moved_consistent k c c' new); auto; [apply F|now apply fresh_apart]. }
  split; [exact H|]. intros T. split; [apply H, T|]. destruct (substitute_success k c new c' l (proj1 T) F R) as (_ & _ & X & M).
  now apply (moved_tight k c c' new).
Qed.
Lemma removed_keeps k c c' : removed k c c' -> (consistent c -> consistent c') /\ (tight c -> tight c').
Proof.
  intros R. pose proof (removed_vars k c c' R) as K. destruct R as (_ & _ & _ & _ & _ & _ & A & B).
  assert (H : consistent c -> consistent c').
  { intros [N C]. split; [eapply kept_NoDup; eassumption|]. intros v I. apply (kept_in _ _ _ _ K) in I as [I E].
    rewrite B; [auto|tauto]. }
  split; [exact H|]. intros [C T]. split; [auto|]. intros v E. apply (kept_in _ _ _ _ K).
  destruct (in_dec Z.eq_dec v (vars c)) as [I|I].
  - split; [exact I|]. intros X. now elim E; apply A.
  - rewrite B in E by tauto. elim I. auto.
Qed.
Lemma remove_success k c c' : (forall v, In v (vars c) -> v_acc c v <> None) -> NoDup (vars c) ->
  remove_streaming (fun a => access_eqb a k) c = (c', Ok tt) -> removed k c c'.
Proof.
  intros A N R.
  destruct (existsb (kvar k (v_acc c)) (option_args (v_flags c))) eqn:E.
  - apply existsb_exists in E as (x & I & X). apply kvar_iff in X.
    destruct (remove_fails k c x A I X) as (v & _ & _ & R'). rewrite R' in R. discriminate.
  - destruct (remove_ok k c) as (c1 & R' & X); [split; assumption| |].
    + intros x I H. apply kvar_iff in H. enough (existsb (kvar k (v_acc c)) (option_args (v_flags c)) = true) by congruence.
      apply existsb_exists. eauto.
    + rewrite R' in R. injection R as <-. exact X.
Qed.
Lemma replace_keeps c f t c' : fresh_for c [t] -> replace_var c (PVar f) t = (c', Ok tt) ->
  (consistent c -> consistent c') /\ (tight c -> tight c').
Proof.
  intros [_ F] R. specialize (F t (or_introl eq_refl)).
  destruct (in_dec Z.eq_dec f (vars c)) as [I|I].
  2:{ rewrite replace_absent in R by exact I. injection R as <-. auto. }
  destruct (v_acc c f) as [a|] eqn:E.
  2:{ destruct (replace_missing c f t I E) as [c1 X]. rewrite X in R. discriminate. }
  assert (H : consistent c -> consistent c').
  { intros [N C]. destruct (replace_once c f t a N I E) as (c1 & R1 & S & V & A). rewrite R1 in R. injection R as <-.
    split.
    - rewrite V. clear -N F. induction (vars c) as [|v vs IH]; cbn; [constructor|]. apply NoDup_cons_iff in N as [Nv N].
      constructor; [|apply IH; auto; intros J; apply F; now right].
      rewrite in_map_iff. intros (u & Eu & J). unfold swap in Eu.
      destruct (Z.eqb_spec u f), (Z.eqb_spec v f); subst; try contradiction; apply F; cbn; auto.
    - intros v J. rewrite V in J. apply in_map_iff in J as (u & <- & J). rewrite A. unfold swap.
      destruct (Z.eqb_spec u f) as [->|NE]; [now rewrite am_set_eq|]. rewrite am_set_ne, am_del_ne; auto. intros ->. contradiction. }
  split; [exact H|]. intros [C T]. split; [auto|]. destruct C as [N C].
  destruct (replace_once c f t a N I E) as (c1 & R1 & S & V & A). rewrite R1 in R. injection R as <-.
  intros v X. rewrite V, A in *. apply in_map_iff. destruct (Z.eq_dec v t) as [->|NE].
  - exists f. split; [unfold swap; now rewrite Z.eqb_refl|exact I].
  - rewrite am_set_ne in X by exact NE. destruct (Z.eq_dec v f) as [->|NF]; [now rewrite am_del_eq in X|].
    rewrite am_del_ne in X by exact NF. exists v. split; [unfold swap; now destruct (Z.eqb_spec v f)|auto].
Qed.

Lemma performs_keeps c x c' : fresh_for c (introduces x) -> performs c x c' true ->
  (consistent c -> consistent c') /\ (tight c -> tight c').
Proof.
  intros F P. assert (O : forall A (r : result A), true = is_ok r -> exists a, r = Ok a) by (intros A [a|e]; cbn; [eauto|discriminate]).
  assert (OU : forall r : result unit, true = is_ok r -> r = Ok tt) by (intros [[]|e]; cbn; [reflexivity|discriminate]).
  assert (RM : forall k, remove_streaming (fun a => access_eqb a k) c = (c', Ok tt) -> (consistent c -> consistent c') /\ (tight c -> tight c')).
  { intros k R. split; intros C; [|destruct C as [C T]];
      destruct (removed_keeps k c c') as [X Y]; auto; try (apply remove_success; auto; apply C); try apply Y; try (split; assumption). }
  destruct x as [new|new|i o|f t| | | | |]; cbn [performs introduces] in *.
  - destruct P as (r & l & R & E). apply OU in E as ->. now apply (substitute_keeps STREAM_INPUT c new c' l).
  - destruct P as (r & l & R & E). apply OU in E as ->. now apply (substitute_keeps STREAM_OUTPUT c new c' l).
  - destruct P as (r & R & E). apply OU in E as ->. unfold substitute_inputs_and_outputs in R.
    destruct (substitute_inputs_in_cmd_invocation c i) as [[c1 l1] [[]|e]] eqn:R1; [|discriminate].
    destruct (substitute_outputs_in_cmd_invocation c1 o) as [[c2 l2] [[]|e]] eqn:R2; [|discriminate]. injection R as ->.
    assert (F1 : fresh_for c i).
    { destruct F as [N F]. split; [eapply NoDup_app_remove_r; exact N|]. intros w I. apply F, in_or_app. now left. }
    assert (F2 : consistent c -> fresh_for c1 o).
    { intros C. destruct (substitute_success STREAM_INPUT c i c1 l1 C F1 R1) as (_ & _ & X & _). destruct F as [N F].
      split; [eapply NoDup_app_remove_l; exact N|]. intros w I J. rewrite (filled_in _ _ _ _ X) in J. destruct J as [J|[J _]].
      - apply in_split in J as (a & b & ->). rewrite <- app_assoc in N. apply NoDup_remove_2 in N. apply N.
        apply in_or_app. right. apply in_or_app. now right.
      - apply (F w); [apply in_or_app; now right|exact J]. }
    destruct (substitute_keeps STREAM_INPUT c i c1 l1 F1 R1) as [K1 K2].
    split; intros C.
    + exact (proj1 (substitute_keeps STREAM_OUTPUT c1 o c' l2 (F2 C) R2) (K1 C)).
    + exact (proj2 (substitute_keeps STREAM_OUTPUT c1 o c' l2 (F2 (proj1 C)) R2) (K2 C)).
  - destruct P as (r & R & E). apply OU in E as ->. now apply (replace_keeps c f t).
  - destruct P as (r & R & E). apply OU in E as ->. now apply (RM STREAM_INPUT).
  - destruct P as (r & R & E). apply OU in E as ->. now apply (RM STREAM_OUTPUT).
  - destruct P as (r & R & _). unfold generate_inputs in R. pose proof (collect_unchanged is_stream_input c) as U.
    destruct (collect is_stream_input c) as [c1 [l|e]]; cbn in U; injection R as <- _; subst; auto.
  - destruct P as (r & R & _). unfold generate_outputs in R. pose proof (collect_unchanged is_any_output c) as U.
    rewrite R in U. cbn in U. subst. auto.
  - destruct P as (r & R & _). unfold has_other_outputs_vars in R. pose proof (collect_unchanged is_other_output c) as U.
    destruct (collect is_other_output c) as [c1 [l|e]]; cbn in U; injection R as <- _; subst; auto.
Qed.
Lemma history_keeps c xs c' : history c xs c' -> (consistent c -> consistent c') /\ (tight c -> tight c').
Proof.
  induction 1 as [c|c x c' xs c'' F P H [IH1 IH2]]; [auto|]. destruct (performs_keeps c x c' F P). auto.
Qed.
