(** * The methods on objects do what IOVars.v and MapperAgg.v say *)
From Coq Require Import Lia.
Require Import Verif.PyBase Verif.JsonData Verif.Parser Verif.Access Verif.IOInfo Verif.IOVars
  Verif.Transformers Verif.ParaTypes Verif.MapperAgg Verif.Heap Verif.SpecHeap Verif.HeapFacts
  Verif.HeapSep Verif.HeapCopy.

Lemma set_z_assoc l k v k' : assoc_z (set_z l k v) k' = if Z.eqb k' k then Some v else assoc_z l k'.
Proof.
  induction l as [|(a & w) l IH]; cbn.
  - rewrite (Z.eqb_sym k k'). reflexivity.
  - destruct (Z.eqb_spec a k) as [->|N]; cbn.
    + rewrite (Z.eqb_sym k k'). now destruct (Z.eqb_spec k' k).
    + destruct (Z.eqb_spec a k') as [->|N']; [|exact IH]. now destruct (Z.eqb_spec k' k).
Qed.
Lemma del_z_assoc l k k' : assoc_z (del_z l k) k' = if Z.eqb k' k then None else assoc_z l k'.
Proof.
  unfold del_z. induction l as [|(a & w) l IH]; cbn.
  - now destruct (Z.eqb k' k).
  - destruct (Z.eqb_spec a k) as [->|N]; cbn.
    + rewrite IH. destruct (Z.eqb_spec k' k); auto. now destruct (Z.eqb_spec k k'); [congruence|].
    + destruct (Z.eqb_spec a k') as [->|N']; [|exact IH]. now destruct (Z.eqb_spec k' k).
Qed.
Lemma set_s_assoc l k v k' : assoc_s (set_s l k v) k' = if String.eqb k' k then Some v else assoc_s l k'.
Proof.
  induction l as [|(a & w) l IH]; cbn.
  - rewrite (String.eqb_sym k k'). reflexivity.
  - destruct (String.eqb_spec a k) as [->|N]; cbn.
    + rewrite (String.eqb_sym k k'). now destruct (String.eqb_spec k' k).
    + destruct (String.eqb_spec a k') as [->|N']; [|exact IH]. now destruct (String.eqb_spec k' k).
Qed.

(** ** Invocations with the cells that are written
    [sl]: the object, [dl]: its access map, [kl]: the list captured by a closure, if any.
    [keep]: other lists that are not part of the object. *)
Section Sim.
  Variables (sl dl : loc) (kl : option loc) (keep : list loc).
  Definition barred (k : loc) : Prop := kl = Some k \/ In k keep.

  Definition captured (h : heap) (l : list Z) : Prop :=
    match kl with Some k => nth_error h k = Some (OList (map HInt l)) | None => True end.
  Definition env_rel (h : heap) (e : env) : Prop :=
    (exists cls attrs, nth_error h sl = Some (OInst cls attrs) /\ assoc_s attrs "access_map" = Some (HRef dl)) /\
    views_dict h (HRef dl) (fst e) /\ captured h (snd e).
  (** Only the two cells were written, and no leaf object. *)
  Definition step (h h' : heap) : Prop :=
    length h <= length h' /\ stable h h' /\
    (forall l, l < length h -> l <> dl -> Some l <> kl -> nth_error h' l = nth_error h l).
  Lemma step_refl h : step h h.
  Proof. split; [lia|]. split; [apply stable_refl|auto]. Qed.
  Lemma step_trans h1 h2 h3 : step h1 h2 -> step h2 h3 -> step h1 h3.
  Proof.
    intros (L & S & U) (L' & S' & U'). split; [lia|]. split; [eapply stable_trans; eauto|].
    intros l Hl N N'. rewrite U' by (auto; lia). auto.
  Qed.
  Lemma step_snoc h o : step h (h ++ [o]).
  Proof.
    split; [rewrite app_length; lia|]. split; [apply unchanged_stable, unchanged_snoc|].
    intros l Hl _ _. now apply nth_error_app1.
  Qed.
  Lemma step_sl h h' e : env_rel h e -> step h h' -> nth_error h' sl = nth_error h sl.
  Proof.
    intros ((cls & attrs & E & _) & (a & es & Ea & Ed & _) & K) (_ & _ & U). injection Ea as <-. apply U.
    - apply nth_error_Some. congruence.
    - intros ->. congruence.
    - unfold captured in K. intros Hk. destruct kl as [k|]; [injection Hk as ->|]; congruence.
  Qed.

  Definition sim {A B} (h : heap) (e : env) (m : hm A) (n : eff B) (Q : heap -> A -> B -> Prop) : Prop :=
    match m h, n e with
    | (h', Ok a), (e', Ok b) => step h h' /\ env_rel h' e' /\ Q h' a b
    | (_, Raise x), (_, Raise y) => x = y
    | _, _ => False
    end.
  Lemma sim_ret A B h e (a : A) (b : B) (Q : heap -> A -> B -> Prop) :
    env_rel h e -> Q h a b -> sim h e (hret a) (ret b) Q.
  Proof. intros E H. cbn. split; [apply step_refl|auto]. Qed.
  Lemma sim_throw A B h e x (Q : heap -> A -> B -> Prop) : sim h e (hthrow x) (throw x) Q.
  Proof. reflexivity. Qed.
  Lemma sim_bind A B A' B' h e (m : hm A) (n : eff B) (f : A -> hm A') (g : B -> eff B') Q Q' :
    sim h e m n Q ->
    (forall h' e' a b, step h h' -> env_rel h' e' -> Q h' a b -> sim h' e' (f a) (g b) Q') ->
    sim h e (hbind m f) (ebind n g) Q'.
  Proof.
    unfold sim, hbind, ebind. intros S F. destruct (m h) as (h1 & [a|x]), (n e) as (e1 & [b|y]); auto; try contradiction.
    destruct S as (S & E & H). specialize (F _ _ _ _ S E H).
    destruct (f a h1) as (h2 & [a'|x]), (g b e1) as (e2 & [b'|y]); auto.
    destruct F as (S' & F). split; auto. eapply step_trans; eauto.
  Qed.
  (** A computation on the heap that only reads *)
  Lemma sim_read A A' B h e (m : hm A) (a : A) (f : A -> hm A') (n : eff B) Q :
    m h = (h, Ok a) -> sim h e (f a) n Q -> sim h e (hbind m f) n Q.
  Proof. unfold sim, hbind. intros ->. auto. Qed.
  Lemma sim_mono A B h e (m : hm A) (n : eff B) (Q Q' : heap -> A -> B -> Prop) :
    (forall h' a b, step h h' -> Q h' a b -> Q' h' a b) -> sim h e m n Q -> sim h e m n Q'.
  Proof.
    unfold sim. intros F. destruct (m h) as (h1 & [a|x]), (n e) as (e1 & [b|y]); auto.
    intros (S & E & H). auto.
  Qed.

  Lemma read_map h e : env_rel h e -> get_attr (HRef sl) "access_map" h = (h, Ok (HRef dl)).
  Proof.
    intros ((cls & attrs & E & M) & _). unfold get_attr, hbind, get_obj. rewrite E. now rewrite M.
  Qed.
  Lemma read_entries h e : env_rel h e -> exists es, entries (HRef dl) h = (h, Ok (dl, es)) /\
    nth_error h dl = Some (ODict es) /\
    forall k, match assoc_z es k with
              | Some v => exists acc, view_access h v = Some acc /\ fst e k = Some acc
              | None => fst e k = None
              end.
  Proof.
    intros (_ & (a & es & Ea & Ed & V) & _). injection Ea as <-. exists es. split; [|auto].
    unfold entries, hbind, get_obj. now rewrite Ed.
  Qed.
  Lemma put_dict h e es es' m l : env_rel h e -> nth_error h dl = Some (ODict es) -> captured h l ->
    (forall k, match assoc_z es' k with
               | Some v => exists acc, view_access h v = Some acc /\ m k = Some acc
               | None => m k = None
               end) ->
    step h (update h dl (ODict es')) /\ env_rel (update h dl (ODict es')) (m, l).
  Proof.
    intros E Ed K V. assert (S : step h (update h dl (ODict es'))).
    { split; [now rewrite update_length|]. split.
      - intros k c a Ek Lf. rewrite update_other; auto. intros ->. congruence.
      - intros k Hk N _. now apply update_other. }
    split; [exact S|]. assert (Hs := step_sl _ _ _ E S).
    destruct E as ((cls & attrs & E1 & E2) & _ & _). split; [exists cls, attrs; split; [congruence|auto]|].
    split.
    - exists dl, es'. split; [auto|]. split; [apply update_same, nth_error_Some; congruence|].
      intros k. specialize (V k). cbn [fst]. destruct (assoc_z es' k); auto. destruct V as (acc & V1 & V2).
      exists acc. split; auto. eapply view_access_stable; [apply S|auto].
    - unfold captured in *. cbn [snd]. destruct kl as [k|]; auto. rewrite update_other; auto. intros ->. congruence.
  Qed.
  Lemma sim_access_of h e v : env_rel h e ->
    sim h e (access_of_h (HRef sl) v) (access_of v) (fun _ a b => a = b).
  Proof.
    intros E. unfold access_of_h. eapply sim_read; [eapply read_map; eauto|].
    destruct (read_entries h e E) as (es & R & _ & V). specialize (V v).
    unfold sim, hbind at 1, dict_get. unfold hbind at 1. rewrite R. unfold access_of.
    destruct (assoc_z es v) as [x|].
    - destruct V as (acc & V & ->). unfold view_access in V. cbn.
      destruct x; try discriminate. cbn in V. unfold get_attr, hbind, get_obj.
      destruct (nth_error h l) as [[| |cls attrs]|]; try discriminate.
      destruct (String.eqb cls "AccessKind"); try discriminate.
      destruct (assoc_s attrs "kind") as [[]|]; try discriminate. injection V as ->.
      cbn. split; [apply step_refl|auto].
    - now rewrite V.
  Qed.
  Lemma sim_pop_access h e v : env_rel h e ->
    sim h e (dict_pop (HRef dl) v) (pop_access v) (fun h' x a => view_access h' x = Some a).
  Proof.
    intros E. destruct (read_entries h e E) as (es & R & Ed & V). assert (V' := V v).
    unfold sim, dict_pop. unfold hbind at 1. rewrite R. unfold pop_access.
    destruct (assoc_z es v) as [x|].
    - destruct V' as (acc & V' & ->). cbn.
      destruct (put_dict h e es (del_z es v) (am_del (fst e) v) (snd e) E Ed) as (S & E').
      + apply E.
      + intros k. rewrite del_z_assoc. unfold am_del. destruct (Z.eqb k v); auto. apply V.
      + split; [exact S|]. split; [exact E'|]. eapply view_access_stable; [apply S|auto].
    - now rewrite V'.
  Qed.
  Lemma sim_set_access h e v x a : env_rel h e -> view_access h x = Some a ->
    sim h e (dict_set (HRef dl) v x) (set_access v a) (fun _ _ _ => True).
  Proof.
    intros E X. destruct (read_entries h e E) as (es & R & Ed & V).
    unfold sim, dict_set. unfold hbind at 1. rewrite R. cbn.
    destruct (put_dict h e es (set_z es v x) (am_set (fst e) v a) (snd e) E Ed) as (S & E'); auto.
    - apply E.
    - intros k. rewrite set_z_assoc. unfold am_set. destruct (Z.eqb k v); [eauto|]. apply V.
  Qed.
  Lemma sim_replace h e v w : env_rel h e ->
    sim h e (replace_var_consistently_h (HRef sl) v w) (replace_var_consistently v w) (fun _ a b => a = HInt b).
  Proof.
    intros E. unfold replace_var_consistently_h. eapply sim_read; [eapply read_map; eauto|].
    destruct (read_entries h e E) as (es & R & _ & V). specialize (V v).
    eapply sim_read with (a := match assoc_z es v with Some _ => true | None => false end).
    { unfold dict_has, hbind. now rewrite R. }
    unfold sim, replace_var_consistently. destruct (assoc_z es v) as [x|].
    - destruct V as (acc & _ & ->). cbn [negb].
      change (sim h e (run! a := dict_pop (HRef dl) v in run! _ := dict_set (HRef dl) w a in hret (HInt w))
                (do! a := pop_access v in do! _ := set_access w a in ret w) (fun _ a b => a = HInt b)).
      eapply sim_bind; [now apply sim_pop_access|]. intros h1 e1 a b S1 E1 H1.
      eapply sim_bind; [now apply sim_set_access|]. intros h2 e2 _ _ S2 E2 _. now apply sim_ret.
    - now rewrite V.
  Qed.
  Lemma sim_pop0 h e : env_rel h e -> kl <> None ->
    forall k, kl = Some k -> sim h e (list_pop0 (HRef k)) pop0 (fun _ a b => a = HInt b).
  Proof.
    intros E N k Ek. assert (K := proj2 (proj2 E)). unfold captured in K. rewrite Ek in K.
    unfold sim, list_pop0, hbind, get_obj, pop0. rewrite K. destruct (snd e) as [|x l] eqn:Es; cbn; auto.
    assert (S : step h (update h k (OList (map HInt l)))).
    { split; [now rewrite update_length|]. split.
      - intros i c a Ei Lf. rewrite update_other; auto. intros ->. congruence.
      - intros i Hi _ Ni. apply update_other. intros ->. now apply Ni. }
    split; [exact S|]. split; [|reflexivity]. assert (Hs := step_sl _ _ _ E S).
    destruct E as ((cls & attrs & E1 & E2) & (a & es & Ea & Ed & V) & _). injection Ea as <-.
    split; [exists cls, attrs; split; [congruence|auto]|]. cbn [fst snd]. split.
    - exists dl, es. split; [auto|]. split; [rewrite update_other; auto; intros ->; congruence|].
      intros i. specialize (V i). destruct (assoc_z es i); auto. destruct V as (acc & V1 & V2).
      exists acc. split; auto. eapply view_access_stable; [apply S|auto].
    - unfold captured. rewrite Ek. apply update_same, nth_error_Some. congruence.
  Qed.

  (** *** Functions passed to the traversals *)
  Definition vals (h : heap) (l : list hval) (l' : list pyval) : Prop :=
    Forall2 (fun v p => view_val h v = Some p) l l'.
  Lemma vals_stable h h' l l' : stable h h' -> vals h l l' -> vals h' l l'.
  Proof. intros S. apply Forall2_stable. intros x p. now apply view_val_stable. Qed.
  Definition fsim (f : hval -> hm (list hval)) (g : pyval -> eff (list pyval)) : Prop :=
    forall h e x p, env_rel h e -> view_val h x = Some p -> sim h e (f x) (g p) vals.

  Lemma fsim_map_var f g :
    (forall h e v, env_rel h e -> sim h e (f v) (g v) (fun _ a b => a = HInt b)) ->
    fsim (fun x => match x with HInt v => run! y := f v in hret [y] | _ => hret [x] end)
         (fun el => match el with PVar v => do! w := g v in ret [PVar w] | _ => ret [el] end).
  Proof.
    intros F h e x p E V.
    assert (D : (exists v, x = HInt v /\ p = PVar v) \/
                ((forall v, x <> HInt v) /\ forall v, p <> PVar v)).
    { apply view_val_form in V. destruct V; [right; split; discriminate|left; eauto|right; split; discriminate..]. }
    assert (R : sim h e (hret [x]) (ret [p]) vals) by (apply sim_ret; auto; constructor; auto; constructor).
    destruct D as [(v & -> & ->)|(Nx & Np)].
    - eapply sim_bind; [now apply F|]. intros h' e' a b S E' ->. apply sim_ret; auto.
      constructor; [reflexivity|constructor].
    - destruct x; try (exfalso; eapply Nx; reflexivity); destruct p; try (exfalso; eapply Np; reflexivity); exact R.
  Qed.
  Lemma fsim_substitute (is_kind : access -> bool) k : kl = Some k -> fsim
    (fun x => match x with
              | HInt v => run! y := (run! a := access_of_h (HRef sl) v in
                                     if is_kind a then
                                       run! x := list_pop0 (HRef k) in
                                       run! new_var := as_int x in
                                       replace_var_consistently_h (HRef sl) v new_var
                                     else hret (HInt v)) in hret [y]
              | _ => hret [x] end)
    (fun el => match el with PVar v => do! w := substitute_fun is_kind v in ret [PVar w] | _ => ret [el] end).
  Proof.
    intros Ek. apply fsim_map_var. intros h e v E. unfold substitute_fun.
    eapply sim_bind; [now apply sim_access_of|]. intros h1 e1 a b S1 E1 ->.
    destruct (is_kind b); [|now apply sim_ret].
    eapply sim_bind; [apply sim_pop0; auto; congruence|]. intros h2 e2 x y S2 E2 ->.
    eapply sim_read; [reflexivity|]. now apply sim_replace.
  Qed.
  Lemma fsim_replace from from' to_var : (forall h, view_val h from = Some from' \/ (forall v, from <> HInt v) /\ (forall v, from' <> PVar v)) -> fsim
    (fun x => match x with
              | HInt v => run! y := match from with
                                    | HInt w => if Z.eqb v w then replace_var_consistently_h (HRef sl) w to_var else hret (HInt v)
                                    | _ => hret (HInt v)
                                    end in hret [y]
              | _ => hret [x] end)
    (fun el => match el with PVar v => do! w := match from' with
                           | PVar f => if Z.eqb v f then replace_var_consistently f to_var else ret v
                           | _ => ret v
                           end in ret [PVar w] | _ => ret [el] end).
  Proof.
    intros Fr. apply fsim_map_var. intros h e v E.
    assert (R : sim h e (hret (HInt v)) (ret v) (fun _ a b => a = HInt b)) by now apply sim_ret.
    assert (D : (exists w, from = HInt w /\ from' = PVar w) \/
                ((forall v, from <> HInt v) /\ forall v, from' <> PVar v)).
    { destruct (Fr h) as [V|]; auto.
      apply view_val_form in V. destruct V; [right; split; discriminate|left; eauto|right; split; discriminate..]. }
    destruct D as [(w & -> & ->)|(Nx & Np)].
    - destruct (Z.eqb v w); [now apply sim_replace|exact R].
    - destruct from; try (exfalso; eapply Nx; reflexivity); destruct from'; try (exfalso; eapply Np; reflexivity); exact R.
  Qed.
  Lemma fsim_remove (is_kind : access -> bool) : fsim
    (fun x => match x with
              | HInt v =>
                  run! a := access_of_h (HRef sl) v in
                  if is_kind a then
                    run! d := get_attr (HRef sl) "access_map" in
                    run! _ := dict_pop d v in
                    hret []
                  else hret [x]
              | _ => hret [x]
              end)
    (remove_fun is_kind).
  Proof.
    intros h e x p E V.
    assert (R : sim h e (hret [x]) (ret [p]) vals) by (apply sim_ret; auto; constructor; auto; constructor).
    assert (D : (exists v, x = HInt v /\ p = PVar v) \/
                ((forall v, x <> HInt v) /\ forall v, p <> PVar v)).
    { apply view_val_form in V. destruct V; [right; split; discriminate|left; eauto|right; split; discriminate..]. }
    unfold remove_fun. destruct D as [(v & -> & ->)|(Nx & Np)].
    - eapply sim_bind; [now apply sim_access_of|]. intros h1 e1 a b S1 E1 ->. destruct (is_kind b).
      + eapply sim_read; [eapply read_map; eauto|]. eapply sim_bind; [now apply sim_pop_access|].
        intros h2 e2 y z S2 E2 _. apply sim_ret; auto. constructor.
      + apply sim_ret; auto. constructor; [reflexivity|constructor].
    - destruct x; try (exfalso; eapply Nx; reflexivity); destruct p; try (exfalso; eapply Np; reflexivity); exact R.
  Qed.

  (** *** The traversals *)
  Definition flags (h : heap) (l : list hval) (l' : list flag_el) : Prop :=
    Forall2 (fun v p => view_flag h v = Some p) l l'.
  Lemma flags_stable h h' l l' : stable h h' -> flags h l l' -> flags h' l l'.
  Proof. intros S. apply Forall2_stable. intros x p. now apply view_flag_stable. Qed.

  Variables (f : hval -> hm (list hval)) (g : pyval -> eff (list pyval)).
  Hypothesis FG : fsim f g.

  Lemma view_new_option h n y p : view_val h y = Some p ->
    let h' := h ++ [OInst "OptionWithIO" [("option_name", HStr n); ("option_arg", y)]] in
    view_flag h' (HRef (length h)) = Some (FOptIO n p).
  Proof.
    intros V. cbv zeta. apply view_flag_form. eapply ff_io.
    - rewrite nth_error_snoc, Nat.eqb_refl. reflexivity.
    - reflexivity.
    - reflexivity.
    - eapply view_val_stable; [apply unchanged_stable, unchanged_snoc|auto].
  Qed.
  Lemma read_class h l c attrs : nth_error h l = Some (OInst c attrs) -> class_of (HRef l) h = (h, Ok (Some c)).
  Proof. intros E. unfold class_of. now rewrite E. Qed.
  Lemma read_attr h l c attrs n v : nth_error h l = Some (OInst c attrs) -> assoc_s attrs n = Some v ->
    get_attr (HRef l) n h = (h, Ok v).
  Proof. intros E A. unfold get_attr, hbind, get_obj. rewrite E. now rewrite A. Qed.

  Lemma sim_flags l : forall l' h e, env_rel h e -> flags h l l' ->
    sim h e (hmap (visit_flag_h f) l) (loop_flags g l') flags.
  Proof.
    induction l as [|x l IH]; intros l' h e E V; inversion V as [|? p ? q Hx Hl]; subst.
    - apply sim_ret; [auto|constructor].
    - cbn [hmap loop_flags].
      assert (K : sim h e (run! y := hret x in run! ys := hmap (visit_flag_h f) l in hret (y :: ys))
                    (do! l'' := loop_flags g q in ret (p :: l'')) flags).
      { eapply sim_read; [reflexivity|]. eapply sim_bind; [now apply IH|]. intros h1 e1 a b S1 E1 H1.
        apply sim_ret; auto. constructor; auto. eapply view_flag_stable; [apply S1|auto]. }
      assert (T : forall k, visit_flag_h f x h = hret x h ->
                  forall m, sim h e (hbind (hret x) k) m flags -> sim h e (hbind (visit_flag_h f x) k) m flags).
      { intros k Eq m. unfold sim, hbind. now rewrite Eq. }
      apply view_flag_form in Hx. destruct Hx as [k attrs n E1 E2|k attrs n y p E1 E2 E3 E4|k attrs n y p E1 E2 E3 E4].
      + apply T; [|exact K]. unfold visit_flag_h, hbind at 1. now rewrite (read_class _ _ _ _ E1).
      + apply T; [|exact K]. unfold visit_flag_h, hbind at 1. now rewrite (read_class _ _ _ _ E1).
      + clear K T.
        assert (Eq : forall A (k' : hval -> hm A), hbind (visit_flag_h f (HRef k)) k' h =
          (run! r := f y in
           run! z := match r with [z] => (run! n := get_attr (HRef k) "option_name" in new_option_with_io n z) | _ => hthrow ValueError end in
           k' z) h).
        { intros A k'. unfold visit_flag_h, hbind. rewrite (read_class _ _ _ _ E1). cbn [String.eqb Ascii.eqb Bool.eqb].
          rewrite (read_attr _ _ _ _ _ _ E1 E3). destruct (f y h) as (h1 & [r|ex]); auto. }
        unfold sim. rewrite Eq.
        match goal with |- match ?m h with _ => _ end => change (sim h e m
          (do! r := g p in match r with [x] => do! l'' := loop_flags g q in ret (FOptIO n x :: l'') | _ => throw ValueError end) flags) end.
        eapply sim_bind; [apply FG; eauto|]. intros h1 e1 a b S1 E1' H1.
        destruct H1 as [|v p' a b Hv [|v2 p2 a2 b2 Hv2 Hr]]; try apply sim_throw.
        assert (E2' : nth_error h1 k = Some (OInst "OptionWithIO" attrs)) by (eapply S1; eauto; leaf).
        set (h2 := h1 ++ [OInst "OptionWithIO" [("option_name", HStr n); ("option_arg", v)]]).
        assert (A2 : (run! n := get_attr (HRef k) "option_name" in new_option_with_io n v) h1 = (h2, Ok (HRef (length h1)))).
        { unfold hbind. rewrite (read_attr _ _ _ _ _ _ E2' E2). reflexivity. }
        assert (S2 : step h1 h2) by apply step_snoc.
        assert (E3' : env_rel h2 e1).
        { assert (Hs := step_sl _ _ _ E1' S2).
          destruct E1' as ((cls & at' & E1' & E1'') & V1 & K1). split; [exists cls, at'; split; [congruence|auto]|].
          split; [eapply views_dict_unchanged; eauto; apply unchanged_snoc|].
          unfold captured in *. destruct kl; auto. unfold h2. rewrite nth_error_app1; auto.
          apply nth_error_Some. congruence. }
        assert (Hn : view_flag h2 (HRef (length h1)) = Some (FOptIO n p')) by now apply view_new_option.
        assert (Hl' : flags h2 l q).
        { eapply flags_stable; [|exact Hl]. eapply stable_trans; [apply S1|apply S2]. }
        unfold sim, hbind at 1. rewrite A2.
        assert (IH' := IH q h2 e1 E3' Hl'). unfold sim in IH'. unfold hbind, ebind.
        destruct (hmap (visit_flag_h f) l h2) as (h3 & [ys|x3]), (loop_flags g q e1) as (e3 & [zs|y3]); auto.
        destruct IH' as (S3 & E4' & H4). cbn. split; [eapply step_trans; eauto|]. split; [auto|].
        constructor; auto. eapply view_flag_stable; [apply S3|auto].
  Qed.
  Lemma sim_ops l : forall l' h e, env_rel h e -> vals h l l' ->
    sim h e (hmap f l) (loop_ops g l') (fun h' a b => vals h' (List.concat a) b).
  Proof.
    induction l as [|x l IH]; intros l' h e E V; inversion V as [|? p ? q Hx Hl]; subst.
    - apply sim_ret; [auto|constructor].
    - cbn [hmap loop_ops]. eapply sim_bind; [now apply FG|]. intros h1 e1 a b S1 E1 H1.
      eapply sim_bind; [apply IH; auto; eapply vals_stable; eauto; apply S1|]. intros h2 e2 a2 b2 S2 E2 H2.
      apply sim_ret; auto. cbn. apply Forall2_app; auto. eapply vals_stable; [apply S2|exact H1].
  Qed.
  Lemma sim_implicit x p h e : env_rel h e -> view_val h x = Some p ->
    sim h e (run! r := f x in match r with [] => hret HNone | [y] => hret y | _ => hthrow AssertionError end)
        (visit_implicit g p) (fun h' y q => view_val h' y = Some q).
  Proof.
    intros E V. unfold visit_implicit. eapply sim_bind; [now apply FG|]. intros h1 e1 a b S1 E1 H1.
    destruct H1 as [|v p' a b Hv [|v2 p2 a2 b2 Hv2 Hr]]; [apply sim_ret; auto|apply sim_ret; auto|apply sim_throw].
  Qed.

  (** *** Methods *)
  (** The object stands for the value, and its lists are not the captured list. *)
  Definition obj_rel (h : heap) (s : civ * list Z) : Prop :=
    exists cls attrs fl ol i o,
      nth_error h sl = Some (OInst cls attrs) /\ invocation_class cls /\
      assoc_s attrs "cmd_name" = Some (HStr (v_cmd (fst s))) /\
      assoc_s attrs "flag_option_list" = Some fl /\ views view_flag h fl (v_flags (fst s)) /\
      assoc_s attrs "operand_list" = Some ol /\ views view_val h ol (v_ops (fst s)) /\
      assoc_s attrs "implicit_use_of_streaming_input" = Some i /\ view_val h i = Some (v_in (fst s)) /\
      assoc_s attrs "implicit_use_of_streaming_output" = Some o /\ view_val h o = Some (v_out (fst s)) /\
      assoc_s attrs "access_map" = Some (HRef dl) /\ views_dict h (HRef dl) (v_acc (fst s)) /\
      captured h (snd s) /\ (forall k, barred k -> k < length h /\ fl <> HRef k /\ ol <> HRef k).

  Definition wstep (h h' : heap) : Prop :=
    length h <= length h' /\ stable h h' /\
    (forall l, l < length h -> l <> sl -> l <> dl -> Some l <> kl -> nth_error h' l = nth_error h l).
  Lemma step_wstep h h' : step h h' -> wstep h h'.
  Proof. intros (A & B & C). split; [auto|]. split; [auto|]. auto. Qed.
  Lemma wstep_trans h1 h2 h3 : wstep h1 h2 -> wstep h2 h3 -> wstep h1 h3.
  Proof.
    intros (L & S & U) (L' & S' & U'). split; [lia|]. split; [eapply stable_trans; eauto|].
    intros l Hl N N' N''. rewrite U' by (auto; lia). auto.
  Qed.
  Lemma wstep_refl h : wstep h h.
  Proof. apply step_wstep, step_refl. Qed.

  Lemma obj_env h s : obj_rel h s -> env_rel h (v_acc (fst s), snd s).
  Proof.
    intros (cls & attrs & fl & ol & i & o & E & _ & _ & _ & _ & _ & _ & _ & _ & _ & _ & M & V & K & _).
    split; [eauto|]. auto.
  Qed.
  Lemma views_list_cell A (view : heap -> hval -> option A) h h' x l :
    (forall y p, view h y = Some p -> view h' y = Some p) ->
    (forall a, x = HRef a -> nth_error h' a = nth_error h a) ->
    views view h x l -> views view h' x l.
  Proof.
    intros F U (a & vs & -> & E & Q). exists a, vs. split; [auto|]. split; [rewrite (U a eq_refl); auto|].
    eapply Forall2_stable; eauto.
  Qed.
  Lemma views_cell A (view : heap -> hval -> option A) h x l a : views view h x l -> x = HRef a ->
    exists vs, nth_error h a = Some (OList vs) /\ a < length h.
  Proof.
    intros (b & vs & -> & E & _) Q. injection Q as ->. exists vs. split; auto. apply nth_error_Some. congruence.
  Qed.
  Lemma obj_step h h1 c l m l' :
    obj_rel h (c, l) -> step h h1 -> env_rel h1 (m, l') -> obj_rel h1 (with_acc m c, l').
  Proof.
    intros O S (_ & V' & K'). assert (Hs := step_sl _ _ _ (obj_env _ _ O) S).
    destruct O as (cls & attrs & fl & ol & i & o & E & Cl & E1 & E2 & V2 & E3 & V3 & E4 & V4 & E5 & V5 & E6 & V6 & K & D).
    cbn [fst snd] in *. destruct S as (L & S & U).
    assert (W : forall A (view : heap -> hval -> option A) x q, views view h x q ->
      (forall k, kl = Some k -> x <> HRef k) -> forall a, x = HRef a -> nth_error h1 a = nth_error h a).
    { intros A view x q Vx Nx a Ex. destruct (views_cell _ _ _ _ _ _ Vx Ex) as (vs & Ea & La). apply U; auto.
      - intros ->. destruct V6 as (b & es & Eb & V6 & _). injection Eb as <-. congruence.
      - intros Hk. eapply Nx; eauto. }
    exists cls, attrs, fl, ol, i, o. cbn [fst snd with_acc v_cmd v_flags v_ops v_in v_out v_acc].
    split; [congruence|]. split; [auto|]. split; [auto|]. split; [auto|].
    split; [eapply views_list_cell; [|eapply W; [exact V2|intros k Hk; now apply (D k (or_introl Hk))]|exact V2];
            intros; eapply view_flag_stable; eauto|].
    split; [auto|].
    split; [eapply views_list_cell; [|eapply W; [exact V3|intros k Hk; now apply (D k (or_introl Hk))]|exact V3];
            intros; eapply view_val_stable; eauto|].
    split; [auto|]. split; [eapply view_val_stable; eauto|].
    split; [auto|]. split; [eapply view_val_stable; eauto|].
    split; [auto|]. split; [auto|]. split; [auto|].
    intros k Hk. destruct (D k Hk). split; [lia|auto].
  Qed.

  (** Assignment to an attribute of the object *)
  Lemma leaf_not_invocation cls : leaf_class cls -> invocation_class cls -> False.
  Proof. unfold leaf_class, invocation_class; cbn; intuition congruence. Qed.
  Lemma set_self h s n v : obj_rel h s ->
    exists cls attrs, nth_error h sl = Some (OInst cls attrs) /\ invocation_class cls /\
      set_attr (HRef sl) n v h = (update h sl (OInst cls (set_s attrs n v)), Ok tt) /\
      wstep h (update h sl (OInst cls (set_s attrs n v))) /\
      (forall x, x <> HRef sl -> forall a, x = HRef a ->
         nth_error (update h sl (OInst cls (set_s attrs n v))) a = nth_error h a).
  Proof.
    intros (cls & attrs & fl & ol & i & o & E & Cl & _). exists cls, attrs. split; [auto|]. split; [auto|].
    split; [unfold set_attr, hbind, get_obj; now rewrite E|]. split.
    - split; [now rewrite update_length|]. split.
      + intros k c a Ek Lf. rewrite update_other; auto. intros ->. assert (c = cls) by congruence. subst.
        exfalso; eapply leaf_not_invocation; eauto.
      + intros k Hk N _ _. now apply update_other.
    - intros x N a ->. apply update_other. congruence.
  Qed.
  Inductive field : Type := FFlags | FOps | FIn | FOut.
  Definition field_name (fd : field) : string :=
    match fd with
    | FFlags => "flag_option_list" | FOps => "operand_list"
    | FIn => "implicit_use_of_streaming_input" | FOut => "implicit_use_of_streaming_output"
    end.
  Definition field_type (fd : field) : Type :=
    match fd with FFlags => list flag_el | FOps => list pyval | _ => pyval end.
  Definition field_view (h : heap) (fd : field) (v : hval) : field_type fd -> Prop :=
    match fd with
    | FFlags => fun l => views view_flag h v l /\ (forall k, barred k -> v <> HRef k)
    | FOps => fun l => views view_val h v l /\ (forall k, barred k -> v <> HRef k)
    | _ => fun p => view_val h v = Some p
    end.
  Definition with_field (fd : field) : field_type fd -> civ -> civ :=
    match fd with FFlags => with_flags | FOps => with_ops | FIn => with_in | FOut => with_out end.
  Lemma set_field h c l fd v x : obj_rel h (c, l) -> field_view h fd v x ->
    exists h', set_attr (HRef sl) (field_name fd) v h = (h', Ok tt) /\ wstep h h' /\
               obj_rel h' (with_field fd x c, l).
  Proof.
    intros O V. destruct (set_self h (c, l) (field_name fd) v O) as (cls' & attrs' & E' & Cl' & R & W & U).
    set (h' := update h sl (OInst cls' (set_s attrs' (field_name fd) v))) in *.
    exists h'. split; [exact R|]. split; [exact W|].
    destruct O as (cls & attrs & fl & ol & i & o & E & Cl & E1 & E2 & V2 & E3 & V3 & E4 & V4 & E5 & V5 & E6 & V6 & K & D).
    cbn [fst snd] in *. rewrite E in E'. injection E' as <- <-. destruct W as (L & S & _).
    assert (N : forall A (view : heap -> hval -> option A) y q, views view h y q -> y <> HRef sl).
    { intros A view y q Vy ->. destruct (views_cell _ _ _ _ _ _ Vy eq_refl) as (vs & Ea & _). congruence. }
    assert (Vf : forall y q, views view_flag h y q -> views view_flag h' y q).
    { intros y q Vy. eapply views_list_cell; [|apply U; eapply N; eauto|exact Vy]. intros; eapply view_flag_stable; eauto. }
    assert (Vv : forall y q, views view_val h y q -> views view_val h' y q).
    { intros y q Vy. eapply views_list_cell; [|apply U; eapply N; eauto|exact Vy]. intros; eapply view_val_stable; eauto. }
    assert (Vx : forall y q, view_val h y = Some q -> view_val h' y = Some q) by (intros; eapply view_val_stable; eauto).
    assert (Vd : views_dict h' (HRef dl) (v_acc c)).
    { destruct V6 as (a & es & Ea & Ed & V6). injection Ea as <-. exists dl, es. split; [auto|].
      split; [unfold h'; rewrite update_other; auto; intros ->; congruence|].
      intros q. specialize (V6 q). destruct (assoc_z es q); auto. destruct V6 as (acc & V6 & V6').
      exists acc. split; auto. eapply view_access_stable; eauto. }
    assert (Kd : captured h' l).
    { unfold captured in *. destruct kl as [k|]; auto. unfold h'. rewrite update_other; auto. intros ->. congruence. }
    assert (Hs : nth_error h' sl = Some (OInst cls (set_s attrs (field_name fd) v))).
    { apply update_same, nth_error_Some. congruence. }
    destruct fd; cbn [field_view field_name with_field field_type] in *.
    - exists cls, (set_s attrs "flag_option_list" v), v, ol, i, o. rewrite !set_s_assoc. cbn.
      destruct V as (V & Nv). do 14 (split; [now auto|]). intros k Hk. unfold h'. rewrite update_length. split; [apply (D k Hk)|]. split; [auto|apply (D k Hk)].
    - exists cls, (set_s attrs "operand_list" v), fl, v, i, o. rewrite !set_s_assoc. cbn.
      destruct V as (V & Nv). do 14 (split; [now auto|]). intros k Hk. unfold h'. rewrite update_length. split; [apply (D k Hk)|]. split; [apply (D k Hk)|auto].
    - exists cls, (set_s attrs "implicit_use_of_streaming_input" v), fl, ol, v, o. rewrite !set_s_assoc. cbn.
      do 14 (split; [now auto|]). intros k Hk. unfold h'. rewrite update_length. apply (D k Hk).
    - exists cls, (set_s attrs "implicit_use_of_streaming_output" v), fl, ol, i, v. rewrite !set_s_assoc. cbn.
      do 14 (split; [now auto|]). intros k Hk. unfold h'. rewrite update_length. apply (D k Hk).
  Qed.

  Definition msim {A B} (h : heap) (s : civ * list Z) (m : hm A) (n : method B) : Prop :=
    match m h, n s with
    | (h', Ok _), (s', Ok _) => wstep h h' /\ obj_rel h' s'
    | (_, Raise x), (_, Raise y) => x = y
    | _, _ => False
    end.
  Lemma msim_then A B A' B' h s (m : hm A) (n : method B) (m' : A -> hm A') (n' : method B') :
    msim h s m n -> (forall h' s' a, wstep h h' -> obj_rel h' s' -> msim h' s' (m' a) n') ->
    msim h s (hbind m m') (then_ n n').
  Proof.
    unfold msim, hbind, then_. intros M F. destruct (m h) as (h1 & [a|x]), (n s) as (s1 & [b|y]); auto; try contradiction.
    destruct M as (W & O). specialize (F h1 s1 a W O).
    destruct (m' a h1) as (h2 & [a'|x]), (n' s1) as (s2 & [b'|y]); auto.
    destruct F as (W' & F). split; auto. eapply wstep_trans; eauto.
  Qed.
  Lemma sim_assign A h c l fd (m : hm A) (k : A -> hm hval) (n : eff (field_type fd)) (Q : heap -> A -> field_type fd -> Prop) :
    obj_rel h (c, l) ->
    sim h (v_acc c, l) m n Q ->
    (forall h1 e1 a b, step h h1 -> env_rel h1 e1 -> Q h1 a b ->
       exists h2 v, k a h1 = (h2, Ok v) /\ step h1 h2 /\ env_rel h2 e1 /\ field_view h2 fd v b) ->
    msim h (c, l) (run! a := m in run! v := k a in set_attr (HRef sl) (field_name fd) v) (assign n (with_field fd)).
  Proof.
    intros O S F. unfold msim, hbind, assign. unfold sim in S.
    destruct (m h) as (h1 & [a|x]), (n (v_acc c, l)) as ((m1 & l1) & [b|y]); auto; try contradiction.
    destruct S as (S1 & E1 & H1). destruct (F _ _ _ _ S1 E1 H1) as (h2 & v & R & S2 & E2 & V).
    rewrite R. assert (O2 : obj_rel h2 (with_acc m1 c, l1)).
    { eapply obj_step; [exact O|eapply step_trans; eauto|exact E2]. }
    destruct (set_field h2 _ l1 fd v b O2 V) as (h3 & R3 & W3 & O3). rewrite R3.
    split; [|exact O3]. eapply wstep_trans; [apply step_wstep; eapply step_trans; eauto|exact W3].
  Qed.
  Lemma env_snoc h e o : env_rel h e -> env_rel (h ++ [o]) e.
  Proof.
    intros E. assert (Hs := step_sl _ _ _ E (step_snoc h o)).
    destruct E as ((cls & at' & E1' & E1'') & V1 & K1). split; [exists cls, at'; split; [congruence|auto]|].
    split; [eapply views_dict_unchanged; eauto; apply unchanged_snoc|].
    unfold captured in *. destruct kl; auto. rewrite nth_error_app1; auto. apply nth_error_Some. congruence.
  Qed.
  Lemma new_not_barred h h1 s : obj_rel h s -> length h <= length h1 ->
    forall k, barred k -> HRef (length (h1 : heap)) <> HRef k.
  Proof.
    intros (cls & attrs & fl & ol & i & o & _ & _ & _ & _ & _ & _ & _ & _ & _ & _ & _ & _ & _ & _ & D) L k Hk.
    destruct (D k Hk) as (Lk & _). intros H; injection H as H. lia.
  Qed.
  Lemma msim_visit_flags h s : obj_rel h s ->
    msim h s (visit_flags_h (HRef sl) f) (fun s => assign (loop_flags g (v_flags (fst s))) with_flags s).
  Proof.
    destruct s as (c & l). intros O. assert (O' := O).
    destruct O' as (cls & attrs & fl & ol & i & o & E & Cl & E1 & E2 & V2 & _). cbn [fst snd] in *.
    destruct V2 as (a & vs & -> & Ea & Q).
    assert (M := sim_assign _ h c l FFlags (hmap (visit_flag_h f) vs) (fun l' => alloc (OList l')) _ _ O
                   (sim_flags vs (v_flags c) h (v_acc c, l) (obj_env _ _ O) Q)).
    unfold msim in *. unfold visit_flags_h, hbind at 1. rewrite (read_attr _ _ _ _ _ _ E E2).
    unfold hbind at 1. unfold items. unfold hbind at 1. unfold get_obj. rewrite Ea. apply M. clear M.
    intros h1 e1 r b S1 E1' H1. exists (h1 ++ [OList r]), (HRef (length h1)). split; [reflexivity|].
    split; [apply step_snoc|]. split; [now apply env_snoc|]. split.
    - exists (length h1), r. split; [auto|]. split; [now rewrite nth_error_snoc, Nat.eqb_refl|].
      eapply flags_stable; [apply unchanged_stable, unchanged_snoc|exact H1].
    - intros k Hk. eapply new_not_barred; [exact O|apply S1|exact Hk].
  Qed.
  Lemma msim_visit_operands h s : obj_rel h s ->
    msim h s (visit_operands_h (HRef sl) f) (fun s => assign (loop_ops g (v_ops (fst s))) with_ops s).
  Proof.
    destruct s as (c & l). intros O. assert (O' := O).
    destruct O' as (cls & attrs & fl & ol & i & o & E & Cl & E1 & E2 & _ & E3 & V3 & _). cbn [fst snd] in *.
    destruct V3 as (a & vs & -> & Ea & Q).
    assert (M := sim_assign _ h c l FOps (hmap f vs) (fun l' => alloc (OList (List.concat l'))) _ _ O
                   (sim_ops vs (v_ops c) h (v_acc c, l) (obj_env _ _ O) Q)).
    unfold msim in *. unfold visit_operands_h, hbind at 1. rewrite (read_attr _ _ _ _ _ _ E E3).
    unfold hbind at 1. unfold items. unfold hbind at 1. unfold get_obj. rewrite Ea. apply M. clear M.
    intros h1 e1 r b S1 E1' H1. exists (h1 ++ [OList (List.concat r)]), (HRef (length h1)). split; [reflexivity|].
    split; [apply step_snoc|]. split; [now apply env_snoc|]. split.
    - exists (length h1), (List.concat r). split; [auto|]. split; [now rewrite nth_error_snoc, Nat.eqb_refl|].
      eapply vals_stable; [apply unchanged_stable, unchanged_snoc|exact H1].
    - intros k Hk. eapply new_not_barred; [exact O|apply S1|exact Hk].
  Qed.
  Lemma msim_visit_implicit h s (out : bool) : obj_rel h s ->
    msim h s (visit_implicit_h (HRef sl) f (field_name (if out then FOut else FIn)))
      (fun s => if out then assign (visit_implicit g (v_out (fst s))) with_out s
                else assign (visit_implicit g (v_in (fst s))) with_in s).
  Proof.
    destruct s as (c & l). intros O. assert (O' := O).
    destruct O' as (cls & attrs & fl & ol & i & o & E & Cl & E1 & E2 & _ & E3 & _ & E4 & V4 & E5 & V5 & _). cbn [fst snd] in *.
    assert (T : forall fd x p h (set : pyval -> civ -> civ), view_val h x = Some p ->
      get_attr (HRef sl) (field_name fd) h = (h, Ok x) ->
      visit_implicit_h (HRef sl) f (field_name fd) h =
      (run! a := (run! r := f x in match r with [] => hret HNone | [y] => hret y | _ => hthrow AssertionError end) in
       run! v := hret a in set_attr (HRef sl) (field_name fd) v) h).
    { clear. intros fd x p h set V R. unfold visit_implicit_h, hbind. rewrite R. destruct (f x h) as (h1 & [r|ex]); auto.
      destruct r as [|y [|z r]]; auto. }
    destruct out; unfold msim; cbn [fst snd].
    - rewrite (T FOut o (v_out c) h with_out V5) by (eapply read_attr; eauto).
      refine (sim_assign _ h c l FOut _ (fun a => hret a) _ _ O (sim_implicit o (v_out c) h _ (obj_env _ _ O) V5) _).
      intros h1 e1 a b S1 E1' H1. exists h1, a. split; [reflexivity|]. split; [apply step_refl|]. auto.
    - rewrite (T FIn i (v_in c) h with_in V4) by (eapply read_attr; eauto).
      refine (sim_assign _ h c l FIn _ (fun a => hret a) _ _ O (sim_implicit i (v_in c) h _ (obj_env _ _ O) V4) _).
      intros h1 e1 a b S1 E1' H1. exists h1, a. split; [reflexivity|]. split; [apply step_refl|]. auto.
  Qed.
  Lemma msim_flat_map h s : obj_rel h s -> msim h s (flat_map_h (HRef sl) f) (flat_map_anything_non_names g).
  Proof.
    intros O. unfold flat_map_h, flat_map_anything_non_names.
    eapply msim_then; [now apply msim_visit_flags|]. intros h1 s1 _ _ O1.
    eapply msim_then; [now apply msim_visit_operands|]. intros h2 s2 _ _ O2.
    eapply msim_then; [exact (msim_visit_implicit h2 s2 false O2)|]. intros h3 s3 _ _ O3.
    exact (msim_visit_implicit h3 s3 true O3).
  Qed.
End Sim.
