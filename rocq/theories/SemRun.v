(** * Running mappers and aggregators *)
From Coq Require Import Lia.
Require Import Verif.PyBase Verif.JsonData Verif.Parser Verif.Access Verif.IOInfo Verif.IOVars
  Verif.Transformers Verif.ParaTypes Verif.MapperAgg Verif.SpecLists Verif.SpecVars Verif.SpecPara Verif.SpecMapper
  Verif.ListFacts Verif.IOVarsFacts Verif.IOVarsProps Verif.MapperFacts Verif.SpecParser Verif.ParserFacts Verif.ParserProps
  Verif.ShippedData Verif.P_Mapper Verif.SpecSem Verif.SemFacts.

Lemma kept_filter (c : civ) l l' : kept (with_access c STREAM_INPUT) l l' ->
  filter (fun v => match v_acc c v with Some STREAM_INPUT => true | _ => false end) l = l'.
Proof.
  induction 1 as [|x l l' H K IH|x l l' H K IH]; cbn; [reflexivity| |].
  - unfold with_access in H. rewrite H. now f_equal.
  - unfold with_access in H. destruct (v_acc c x) as [[]|]; congruence.
Qed.

Definition ren (f : Z -> Z) (x : pyval) : pyval := match x with PVar v => PVar (f v) | _ => x end.
Definition ren_flag (f : Z -> Z) (x : flag_el) : flag_el := match x with FOptIO n a => FOptIO n (ren f a) | _ => x end.
Lemma ren_vars f l : varsl (map (ren f) l) = map f (varsl l).
Proof. unfold varsl. induction l as [|x l IH]; [reflexivity|]. cbn. rewrite IH. destruct x; reflexivity. Qed.
Lemma ren_args f l : option_args (map (ren_flag f) l) = map (ren f) (option_args l).
Proof. unfold option_args. induction l as [|x l IH]; [reflexivity|]. cbn. rewrite IH. destruct x; reflexivity. Qed.
Lemma ren_blank f x : blank (ren f x) = blank x.
Proof. destruct x; reflexivity. Qed.
Lemma ren_blank_flag f x : blank_flag (ren_flag f x) = blank_flag x.
Proof. destruct x; cbn; [reflexivity..|]. now rewrite ren_blank. Qed.
Lemma renamed_civ f c m : skeleton m = skeleton c -> vars m = map f (vars c) ->
  m = mkCiv (v_cmd c) (map (ren_flag f) (v_flags c)) (map (ren f) (v_ops c)) (ren f (v_in c)) (ren f (v_out c)) (v_acc m).
Proof.
  intros S V. apply skeleton_inj; [|rewrite V|reflexivity].
  - rewrite S. unfold skeleton. cbn. rewrite !map_map, !ren_blank. do 3 f_equal.
    + f_equal. apply map_ext. intros x. now rewrite ren_blank_flag.
    + apply map_ext. intros x. now rewrite ren_blank.
  - rewrite !vars_eq. cbn. rewrite !map_app, ren_args, !ren_vars. destruct (v_in c), (v_out c); reflexivity.
Qed.

(** A mapper of the original command does on its part what the original does on the whole. *)
Lemma run_original B seed c i s : reads_one c i ->
  run B seed c s = B seed (v_cmd c) (map (wflag_of c s) (v_flags c)) (map (word_of c s) (v_ops c)) [s i].
Proof. intros (_ & K & _). unfold run, streams. now rewrite (kept_filter _ _ _ K). Qed.
Lemma in_vars_flag c n v : In (FOptIO n (PVar v)) (v_flags c) -> In v (vars c).
Proof.
  intros I. rewrite vars_eq. apply in_app_iff. left. unfold varsl, option_args. apply in_flat_map. exists (PVar v).
  split; [|now left]. apply in_flat_map. exists (FOptIO n (PVar v)). split; [auto|now left].
Qed.
Lemma in_vars_op c v : In (PVar v) (v_ops c) -> In v (vars c).
Proof.
  intros I. rewrite vars_eq. apply in_app_iff. right. apply in_app_iff. left. unfold varsl. apply in_flat_map.
  exists (PVar v). split; [auto|now left].
Qed.
Lemma mapper_run p c i x y : reads_one c i -> p_mapper p = seq_mapper -> p_info_mapper_aggregator p = 0 ->
  x <> y -> (v_acc c x = None /\ ~ In x (vars c)) -> (v_acc c y = None /\ ~ In y (vars c)) ->
  exists m, get_actual_mapper p c x y [] = Ok (Some m) /\ writes m y /\
    forall B seed s, run B seed m s = B seed (v_cmd c) (map (wflag_of c s) (v_flags c)) (map (word_of c s) (v_ops c)) [s x].
Proof.
  intros (C & K & (o & Vo & Ko) & Ho & Hv) M N NE (X1 & X2) (Y1 & Y2).
  assert (B0 : mapper_base seq_mapper c c) by now constructor.
  destruct (C43_mapper seq_mapper c c i o x y eq_refl B0 C K Ko) as (m & G & S & V & A1 & A2 & A3 & A4 & A5).
  { split; [repeat constructor; cbn; intuition|]. intros w [<-|[<-|[]]]; auto. }
  exists m. unfold get_actual_mapper. rewrite M, N. cbn [length Nat.eqb assert_ bind]. split; [exact G|].
  assert (Ii := proj1 (kept_in _ _ _ i K) (or_introl eq_refl)).
  assert (Io := proj1 (kept_in _ _ _ o Ko) (or_introl eq_refl)).
  destruct Ii as (Ii & Ai), Io as (Io & Ao). unfold with_access in Ai, Ao.
  assert (Nio : i <> o) by (intros ->; congruence).
  set (f := renamed i x o y) in *.
  assert (Fi : f i = x) by (unfold f, renamed; now rewrite Z.eqb_refl).
  assert (Fo : f o = y).
  { unfold f, renamed. destruct (Z.eqb_spec o i); [congruence|]. now rewrite Z.eqb_refl. }
  assert (F : forall v, v <> i -> v <> o -> f v = v).
  { intros v H1 H2. unfold f, renamed. destruct (Z.eqb_spec v i), (Z.eqb_spec v o); congruence. }
  assert (W : forall s v, In v (vars c) -> word_of m s (PVar (f v)) = word_of c s (PVar v)).
  { intros s v I. cbn [word_of]. destruct (Z.eq_dec v i) as [->|H1]; [now rewrite Fi, A1, Ai|].
    destruct (Z.eq_dec v o) as [->|H2]; [now rewrite Fo, A2, Ao|]. rewrite F by auto.
    rewrite A5; [reflexivity|]. cbn. intuition congruence. }
  split.
  - split; [|exact A2]. rewrite V, <- Fo. now apply in_map.
  - intros B seed s. unfold run, streams. rewrite V. rewrite (renamed_civ f c m S V). cbn [v_cmd v_flags v_ops].
    rewrite <- (renamed_civ f c m S V). rewrite !map_map.
    assert (E1 : map (fun z => wflag_of m s (ren_flag f z)) (v_flags c) = map (wflag_of c s) (v_flags c)).
    { apply map_ext_in. intros [n|n a|n a] I; cbn; [reflexivity|destruct (Hv _ _ I)|]. f_equal.
      destruct a; cbn [ren]; try reflexivity. apply W. eapply in_vars_flag; eauto. }
    assert (E2 : map (fun z => word_of m s (ren f z)) (v_ops c) = map (word_of c s) (v_ops c)).
    { apply map_ext_in. intros a I. destruct a; cbn [ren]; try reflexivity. apply W. now apply in_vars_op. }
    rewrite E1, E2. f_equal.
    assert (E3 : filter (fun v => match v_acc m v with Some STREAM_INPUT => true | _ => false end) (map f (vars c)) = map f [i]).
    { rewrite <- (kept_filter c (vars c) [i] K). clear -W. assert (W' := W (fun _ => "")).
      induction (vars c) as [|v l IH]; [reflexivity|]. cbn [map filter].
      rewrite IH by (intros; apply W; now right).
      specialize (W' v (or_introl eq_refl)). cbn [word_of] in W'.
      destruct (v_acc m (f v)) as [[]|], (v_acc c v) as [[]|]; try discriminate W'; reflexivity. }
    rewrite E3. cbn. now rewrite Fi.
Qed.

(** ** Aggregators *)
Lemma connect_out vs : forall contents s w, ~ In w vs -> connect vs contents s w = s w.
Proof.
  induction vs as [|v vs IH]; intros [|x cs] s w I; try reflexivity. cbn.
  destruct (Z.eqb_spec w v) as [->|]; [destruct I; now left|]. apply IH. intros J; apply I; now right.
Qed.
Lemma connect_in vs : forall contents s, NoDup vs -> length vs = length contents -> map (connect vs contents s) vs = contents.
Proof.
  induction vs as [|v vs IH]; intros [|x cs] s N L; try discriminate; [reflexivity|]. cbn. rewrite Z.eqb_refl. f_equal.
  inversion N; subst. etransitivity; [|apply (IH cs s); [auto|cbn in L; lia]]. apply map_ext_in. intros w I.
  destruct (Z.eqb_spec w v) as [->|]; [contradiction|reflexivity].
Qed.
Lemma varsl_map l : varsl (map PVar l) = l.
Proof. unfold varsl. induction l; cbn; congruence. Qed.
Lemma filter_all {A} (p : A -> bool) l : (forall x, In x l -> p x = true) -> filter p l = l.
Proof. induction l as [|x l IH]; intros H; [reflexivity|]. cbn. rewrite H by now left. f_equal. apply IH. intros; apply H; now right. Qed.
Lemma filter_none {A} (p : A -> bool) l : (forall x, In x l -> p x = false) -> filter p l = [].
Proof. induction l as [|x l IH]; intros H; [reflexivity|]. cbn. rewrite H by now left. apply IH. intros; apply H; now right. Qed.
Lemma cat_run dir c ins out outs : NoDup (out :: ins) -> length ins = length outs -> ins <> [] ->
  exists a, get_aggregator dir SpecPara.concat c ins out = Ok (Some (CONCATENATE, a)) /\ writes a out /\
    forall B seed s, is_cat B -> run B seed a (connect ins outs s) = joined outs.
Proof.
  intros N L NE. destruct (C45_cat dir c ins out) as (a & G & E1 & E2 & E3 & E4 & E5 & A1 & A2 & A3 & T).
  exists a. split; [exact G|].
  assert (V : vars a = ins ++ [out]) by (rewrite vars_eq, E2, E3, E4, E5, varsl_map; reflexivity).
  inversion N as [|? ? Ni Nd]; subst. split.
  - split; [rewrite V; apply in_app_iff; right; now left|exact A1].
  - intros B seed s CB. unfold run. rewrite E1, E2.
    assert (S : streams a = ins).
    { unfold streams. rewrite V, filter_app. rewrite filter_all, filter_none, app_nil_r; [reflexivity| |].
      - intros v [<-|[]]. now rewrite A1.
      - intros v I. rewrite A2; auto. congruence. }
    rewrite S. cbn [map]. rewrite CB by (destruct ins; [contradiction|discriminate]). f_equal. now apply connect_in.
Qed.
(** The merging aggregator of sort *)
Lemma sort_run dir c i ins out outs : reads_one c i -> NoDup (out :: ins) -> length ins = 2 -> length outs = 2 ->
  (forall v, In v (out :: ins) -> v_acc c v = None /\ ~ In v (vars c)) ->
  exists a order, get_aggregator dir sort_merge c ins out = Ok (Some (CUSTOM_2_ARY, a)) /\ writes a out /\
    kept (named sort_order_flags) (v_flags c) order /\
    forall B seed s, run B seed a (connect ins outs s) =
      B seed (v_cmd c) (map (wflag_of c s) order ++ [WFlag "-m"]) (map (fun _ => WStream STREAM_INPUT) ins) outs.
Proof.
  intros (C & K & (o & Vo & Ko) & Ho & Hv) N L L' F.
  set (t := TChain [TFilter sort_order_flags; TAdd [FFlag "-m"]]).
  destruct (ParaProps.sort_flags (v_flags c)) as (order & KO & E).
  assert (Io := proj1 (kept_in _ _ _ o Ko) (or_introl eq_refl)). destruct Io as (Io & Ao). unfold with_access in Ao.
  inversion N as [|? ? Ni Nd]; subst.
  assert (AO : forall x, In x (option_args (v_flags (with_flags (transform t (v_flags c)) c))) ->
    In x (option_args (v_flags c))).
  { intros x J. revert J. cbn [v_flags with_flags]. change (transform t (v_flags c)) with (order ++ [FFlag "-m"]) || (unfold t; rewrite E).
    unfold option_args. rewrite flat_map_app, app_nil_r.
    rewrite !in_flat_map. intros (f & J & X). exists f. split; [|exact X]. now apply (kept_in _ _ _ _ KO) in J. }
  destruct (C46_aggregator dir CUSTOM_2_ARY t c ins o STREAM_OUTPUT out) as (a & R & P1 & P2 & P3 & P4 & P5 & P6 & P7 & P8 & P9).
  - split; [discriminate|intros _; exact L].
  - unfold t; rewrite E. eapply kept_consistent; eassumption.
  - intros x J. apply (Ho x). now apply AO.
  - exact Nd.
  - intros v I. left. now apply F; right.
  - exact Vo.
  - exact Ao.
  - discriminate.
  - exists a, order. split; [exact R|]. unfold t in P2. rewrite E in P2.
    assert (Fo : out <> o) by (intros ->; now apply (F o (or_introl eq_refl))).
    split; [|split; [exact KO|]].
    + split; [|exact P6]. rewrite vars_eq, P5. rewrite !in_app_iff. right; right; right. now left.
    + intros B seed s. unfold run. rewrite P1, P2, P3, map_app, map_map. cbn [map wflag_of].
      assert (IA : forall v, In v ins -> v_acc a v = Some STREAM_INPUT).
      { intros v I. apply P7; auto. intros ->. contradiction. }
      assert (D : forall v, In v (vars c) -> v <> o -> v_acc c v <> Some STREAM_INPUT ->
        v_acc a v = v_acc c v /\ connect ins outs s v = s v).
      { intros v Iv No Sv. assert (Nv : ~ In v (out :: ins)) by (intros J; now apply (F v J)).
        split; [|apply connect_out; intros J; apply Nv; now right].
        apply P9; [intros ->; apply Nv; now left|exact No|intros J; apply Nv; now right|].
        intros (_ & S). now apply Sv. }
      assert (O : forall v, In (PVar v) (option_args (v_flags c)) -> In v (vars c) /\ v <> o /\ v_acc c v <> Some STREAM_INPUT).
      { intros v I. assert (Iv : In v (varsl (option_args (v_flags c)))) by (apply in_flat_map; exists (PVar v); split; [auto|now left]).
        split; [|split].
        - rewrite vars_eq. apply in_app_iff. now left.
        - intros ->. destruct C as (ND & _). rewrite vars_eq in ND. eapply NoDup_app_disjoint; [exact ND|exact Iv|].
          rewrite Vo, !in_app_iff. right; right; now left.
        - intros S. apply (Ho _ I). now exists v. }
      assert (EF : map (wflag_of a (connect ins outs s)) order = map (wflag_of c s) order).
      { apply map_ext_in. intros f I. apply (kept_in _ _ _ _ KO) in I as (I & NI). destruct f as [n|n x|n x]; [reflexivity|destruct (Hv _ _ I)|].
        cbn. f_equal. destruct x as [|v| |]; try reflexivity. cbn.
        destruct (O v) as (O1 & O2 & O3).
        { apply in_flat_map. exists (FOptIO n (PVar v)). split; [auto|now left]. }
        destruct (D v O1 O2 O3) as (-> & ->). reflexivity. }
      rewrite EF. f_equal.
      * apply map_ext_in. intros v I. cbn. now rewrite IA.
      * assert (S : streams a = ins).
        { unfold streams. rewrite vars_eq, P2, P3, P5, varsl_map, !filter_app.
          rewrite (filter_none _ (varsl (option_args _))), (filter_all _ ins), (filter_none _ (var_of (v_in a))), (filter_none _ (var_of (PVar out))).
          - now rewrite app_nil_r.
          - intros v [<-|[]]. now rewrite P6.
          - intros v I. destruct P4 as [(_ & P4)|(P4 & P4')]; [rewrite P4 in I; destruct I|]. rewrite P4' in I.
            destruct (v_in c) as [|w| |] eqn:Vi; try solve [destruct I]. destruct I as [->|[]].
            assert (Si : v_acc c v <> Some STREAM_INPUT) by (intros S; apply P4; now exists v).
            destruct (D v) as (-> & _); [rewrite vars_eq, Vi, !in_app_iff; right; right; left; now left| |exact Si|].
            + intros ->. destruct C as (ND & _). rewrite vars_eq, Vi, Vo in ND. apply NoDup_app_r, NoDup_app_r in ND.
              cbn in ND. inversion ND; subst. apply H1. now left.
            + destruct (v_acc c v) as [[]|]; congruence.
          - intros v I. rewrite IA; auto.
          - intros v I. unfold varsl in I. apply in_flat_map in I as (x & I & Ix). destruct x as [|w| |]; try solve [destruct Ix]. destruct Ix as [->|[]].
            assert (I' : In (PVar v) (option_args (v_flags c))).
            { apply AO. cbn [v_flags with_flags]. unfold t. rewrite E. exact I. }
            destruct (O v I') as (O1 & O2 & O3). destruct (D v O1 O2 O3) as (-> & _). destruct (v_acc c v) as [[]|]; congruence. }
        rewrite S. apply connect_in; [exact Nd|congruence].
Qed.

(** ** Plans *)
Section PlanInd.
  Variable P : plan -> Prop.
  Hypothesis leaf : forall x y seed, P (Leaf x y seed).
  Hypothesis node : forall o seed ts, Forall P ts -> P (Node o seed ts).
  Fixpoint plan_rect' (t : plan) : P t :=
    match t with
    | Leaf x y seed => leaf x y seed
    | Node o seed ts => node o seed ts ((fix all l : Forall P l := match l with [] => Forall_nil P | t' :: l' => Forall_cons t' (plan_rect' t') (all l') end) ts)
    end.
End PlanInd.
Lemma root_in t : In (root t) (plan_vars t).
Proof. destruct t; cbn; auto. Qed.
Lemma parts_in t : forall v, In v (parts t) -> In v (plan_vars t).
Proof.
  induction t as [x y seed|o seed ts IH] using plan_rect'; cbn; [tauto|]. intros v I. right. rewrite in_flat_map in *.
  destruct I as (t & It & I). exists t. rewrite Forall_forall in IH. auto.
Qed.
Lemma roots_nodup o ts : NoDup (o :: flat_map plan_vars ts) -> NoDup (o :: map root ts).
Proof.
  intros N. inversion N as [|? ? Ni Nd]; subst. constructor.
  - intros I. apply Ni. rewrite in_map_iff in I. destruct I as (t & <- & I). apply in_flat_map. exists t. auto using root_in.
  - clear -Nd. induction ts as [|t ts IH]; cbn in *; [constructor|]. constructor.
    + intros I. rewrite in_map_iff in I. destruct I as (u & E & I). eapply NoDup_app_disjoint; [exact Nd|apply root_in|].
      rewrite <- E. apply in_flat_map. exists u. auto using root_in.
    + apply IH. now apply NoDup_app_r in Nd.
Qed.
Lemma fresh_children c o seed ts : fresh_plan c (Node o seed ts) -> Forall (fresh_plan c) ts.
Proof.
  intros (N & F). cbn in N. inversion N as [|? ? _ Nd]; subst. apply Forall_forall. intros t I. split.
  - clear F N. induction ts as [|u ts IH]; [destruct I|]. cbn in Nd. destruct I as [->|I]; [now apply NoDup_app_l in Nd|].
    apply IH; auto. now apply NoDup_app_r in Nd.
  - intros v J. apply F. cbn. right. apply in_flat_map. exists t. auto.
Qed.
Lemma arity_children P ts : fold_right and True (map (arity P) ts) -> Forall (arity P) ts.
Proof. induction ts; cbn; constructor; tauto. Qed.
Lemma all_evaluate B dir p c s ts f : Forall (fun t => evaluates B dir p c s t (f t)) ts -> evaluate_all B dir p c s ts (map f ts).
Proof. induction 1; cbn; constructor; auto. Qed.
(** Plans that concatenate the results of the parts *)
Lemma concat_plan B dir p c i s F : reads_one c i -> p_mapper p = seq_mapper -> p_info_mapper_aggregator p = 0 ->
  p_aggregator p = SpecPara.concat -> is_cat B ->
  forall t, fresh_plan c t -> arity (fun n => n <> 0) t ->
  (forall seed v, In v (parts t) ->
    B seed (v_cmd c) (map (wflag_of c s) (v_flags c)) (map (word_of c s) (v_ops c)) [s v] = F (s v)) ->
  evaluates B dir p c s t (joined (map (fun v => F (s v)) (parts t))).
Proof.
  intros R M N A CB. induction t as [x y seed|o seed ts IH] using plan_rect'; intros FR AR H.
  - destruct FR as (ND & FR). cbn in *. inversion ND as [|? ? Ni _]; subst.
    destruct (mapper_run p c i x y R M N) as (m & G & W & E); [intros ->; apply Ni; now left|apply FR; now left|apply FR; right; now left|].
    rewrite append_nil, <- (H seed) by now left. rewrite <- E. now constructor.
  - pose proof (fresh_children _ _ _ _ FR) as FC. cbn in AR. destruct AR as (AN & AR). apply arity_children in AR.
    set (f := fun t => joined (map (fun v => F (s v)) (parts t))).
    assert (EV : evaluate_all B dir p c s ts (map f ts)).
    { apply all_evaluate. rewrite Forall_forall in *. intros t I. apply IH; auto.
      intros sd v J. apply H. cbn. apply in_flat_map. eauto. }
    destruct (cat_run dir c (map root ts) o (map f ts)) as (a & G & W & E).
    + apply roots_nodup. apply FR.
    + now rewrite !map_length.
    + destruct ts; [now destruct AN|discriminate].
    + assert (E2 : joined (map (fun v => F (s v)) (parts (Node o seed ts))) = joined (map f ts)).
      { cbn [parts]. unfold f. clear. induction ts as [|t ts IH]; [reflexivity|]. cbn [flat_map map]. rewrite map_app, joined_app, IH. reflexivity. }
      rewrite E2, <- (E B seed s CB). econstructor; eauto. rewrite A. exact G.
Qed.
(** A command whose output on an input that is cut at ends of lines is the concatenation of its
    outputs on the pieces *)
Definition distributive (B : behaviour) (c : civ) (s : store) (Q : string -> Prop) : Prop :=
  let f seed x := B seed (v_cmd c) (map (wflag_of c s) (v_flags c)) (map (word_of c s) (v_ops c)) [x] in
  forall pieces seed, pieces <> [] -> Q (joined pieces) -> cut_at_lines (joined pieces) pieces ->
    (forall seed x, In x pieces -> f seed x = f 0 x) /\ f seed (joined pieces) = joined (map (f 0) pieces).
Lemma parts_nonempty (P : nat -> Prop) t : (forall n, P n -> n <> 0) -> arity P t -> parts t <> [].
Proof.
  intros HP. induction t as [x y seed|o seed ts IH] using plan_rect'; cbn; [discriminate|]. intros (N & A).
  apply HP in N. destruct ts as [|t ts]; [now destruct N|]. inversion IH; subst. cbn in *. intros E. apply app_eq_nil in E. tauto.
Qed.
Lemma concat_sound B dir p c i Q : reads_one c i -> In p (stateless SpecPara.concat) -> is_cat B ->
  (forall s, distributive B c s Q) -> parallel_ok B dir p c i (fun n => n <> 0) Q.
Proof.
  intros R I CB D s t seed FR AR HQ DI.
  assert (M : p_mapper p = seq_mapper /\ p_info_mapper_aggregator p = 0 /\ p_aggregator p = SpecPara.concat /\
    cut_at_lines (s i) (map s (parts t))).
  { destruct I as [<-|[<-|[]]]; cbn in DI; auto. }
  destruct M as (M1 & M2 & M3 & CU).
  assert (E := proj1 CU). rewrite E in HQ, CU. rewrite (run_original B seed c i s R).
  assert (NE : map s (parts t) <> []).
  { intros X. apply map_eq_nil in X. revert X. eapply parts_nonempty; [|exact AR]. auto. }
  destruct (D s _ seed NE HQ CU) as (D1 & D2).
  rewrite E, D2. rewrite map_map.
  apply (concat_plan B dir p c i s (fun x => B 0 (v_cmd c) (map (wflag_of c s) (v_flags c)) (map (word_of c s) (v_ops c)) [x])); auto. intros sd v J. apply D1. now apply in_map.
Qed.

(** ** Names of flags *)
Definition names_ok (j : json_data) (names : list string) : bool :=
  forallb (fun w => mem (dict_get_default (get_dict_flag_to_primary_repr j) w w) names &&
                    (negb (Nat.eqb (String.length w) 2) || mem w names)) (get_set_of_all_flags j) &&
  forallb (fun e => match oe_names e with n :: _ => mem n names | [] => true end) (j_option j).
Lemma names_segments j names ws fos ops : names_ok j names = true -> segments j ws fos ops -> Forall (fun fo => In (fo_name fo) names) fos.
Proof.
  intros N (G & _). unfold names_ok in N. rewrite andb_true_iff, !forallb_forall in N. destruct N as (N1 & N2).
  induction G as [ws|ws fos ws' fos' ws'' G _ IH]; [constructor|]. apply Forall_app. split; [|exact IH].
  destruct G as [w p rest _ D K|w p arg rest _ _ D K|w cs rest _ _ BU].
  - constructor; [|constructor]. cbn. apply flags_spec in D. apply N1 in D. apply andb_true_iff in D as (D & _).
    apply flag_canonical_spec in K. rewrite K in D. now apply mem_In.
  - constructor; [|constructor]. cbn. destruct (option_canonical_first j w p D K) as (e & others & I & E).
    apply N2 in I. rewrite E in I. now apply mem_In.
  - apply Forall_forall. intros fo I. apply in_map_iff in I as (ch & <- & I). cbn.
    assert (D : flag_declared j (letter_flag ch)) by (destruct BU as (_ & _ & BU); now apply BU).
    apply flags_spec in D. apply N1 in D. apply andb_true_iff in D as (_ & D). cbn in D. now apply mem_In.
Qed.
Lemma parse_known text inv c s names j : parse shipped_dir text = Ok inv -> loads shipped_dir (cmd_name inv) j ->
  names_ok j names = true -> invocation_of inv c -> known names (map (wflag_of c s) (v_flags c)).
Proof.
  intros P L N (_ & I). apply parse_iff in P as (ws & j' & T & L' & S).
  rewrite <- get_json_data_ok in L, L'. assert (j' = j) by congruence. subst j'.
  apply (names_segments j names) in S; [|exact N]. unfold known.
  assert (E : map wflag_name (map (wflag_of c s) (v_flags c)) = map fo_name (flag_option_list inv)).
  { rewrite <- I, map_map. apply map_ext. intros []; reflexivity. }
  apply Forall_forall. intros f J. rewrite Forall_forall in S.
  assert (J' : In (wflag_name f) (map fo_name (flag_option_list inv))) by (rewrite <- E; now apply in_map).
  apply in_map_iff in J' as (fo & <- & J'). now apply S.
Qed.
