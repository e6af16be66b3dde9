(** * Proofs about aggregators given by a command line *)
From Coq Require Import Lia.
Require Import Verif.PyBase Verif.JsonData Verif.Parser Verif.Access Verif.IOInfo Verif.IOVars
  Verif.Transformers Verif.ParaTypes Verif.ParaGen Verif.MapperAgg Verif.SpecLists Verif.SpecVars Verif.SpecPara Verif.SpecMapper
  Verif.ListFacts Verif.IOVarsFacts Verif.IOVarsProps Verif.MapperFacts Verif.P_Mapper
  Verif.SpecSem Verif.SemFacts Verif.SemRun Verif.SemProps Verif.SpecSem4 Verif.SpecSem6 Verif.P_Sem Verif.P_Sem6 Verif.SpecCustom.

Lemma string_run dir k text c ins out outs agg flags : parse dir text = Ok agg -> flags_only (flag_option_list agg) flags -> k <> ADJ_LINES_FUNC ->
  SpecMapper.takes k (length ins) -> NoDup (out :: ins) -> length ins = length outs ->
  exists a, get_aggregator dir (AggString k text true) c ins out = Ok (Some (k, a)) /\ writes a out /\
    forall B seed s, run B seed a (connect ins outs s) = aggregated B agg seed outs.
Proof.
  intros P F NK T N L. destruct (C47_aggregator dir k text c ins out agg flags P F NK T) as (a & G & E1 & E2 & E3 & _ & _ & V & A1 & A2 & A3).
  exists a. split; [exact G|]. apply NoDup_cons_iff in N as (Ni & Nd). split.
  - split; [rewrite V; apply in_app_iff; right; now left|exact A1].
  - intros B seed s. unfold run, aggregated. rewrite E1, E3.
    assert (A2' : forall v, In v ins -> v_acc a v = Some STREAM_INPUT) by (intros v I; apply A2; [congruence|exact I]).
    assert (S : streams a = ins).
    { unfold streams. rewrite V, filter_app. rewrite filter_all, filter_none, app_nil_r; [reflexivity| |].
      - intros v [<-|[]]. now rewrite A1.
      - intros v I. now rewrite A2'. }
    rewrite S. f_equal.
    + rewrite E2. clear -F. induction F as [|x y l l' (n & -> & ->) _ IH]; [reflexivity|]. cbn. now rewrite IH.
    + rewrite map_map. transitivity (map (fun _ : Z => WStream STREAM_INPUT) ins).
      * apply map_ext_in. intros v I. cbn. now rewrite A2'.
      * clear -L. revert outs L. induction ins as [|v ins IH]; intros [|x outs] L; try discriminate; [reflexivity|]. cbn. f_equal. apply IH. now injection L.
    + now apply connect_in.
Qed.
(** Cutting into the parts of the children *)
Lemma removelast_cons {A} (x : A) l : l <> [] -> removelast (x :: l) = x :: removelast l.
Proof. destruct l; [contradiction|reflexivity]. Qed.
Lemma all_but_last {A} (P : A -> Prop) l : Forall P l -> Forall P (removelast l).
Proof. induction 1 as [|x l H F IH]; [constructor|]. destruct l; [constructor|]. rewrite removelast_cons by discriminate. now constructor. Qed.
Lemma groups_ends (ls : list (list string)) : Forall (fun l => l <> []) ls -> Forall ends_line (removelast (List.concat ls)) ->
  Forall ends_line (removelast (map joined ls)) /\ Forall (fun l => Forall ends_line (removelast l)) ls.
Proof.
  induction ls as [|l ls IH]; intros NE F; [split; constructor|]. inversion NE as [|? ? N1 N2]; subst. cbn [List.concat] in F. destruct ls as [|m ls].
  - cbn [List.concat] in F. rewrite app_nil_r in F. split; [constructor|]. constructor; [exact F|constructor].
  - assert (X : List.concat (m :: ls) <> []) by (inversion N2; subst; destruct m; [contradiction|discriminate]).
    rewrite removelast_app in F by exact X. apply Forall_app in F as (F1 & F2). destruct (IH N2 F2) as (G1 & G2). split.
    + change (map joined (l :: m :: ls)) with (joined l :: map joined (m :: ls)). rewrite removelast_cons by discriminate. constructor; [now apply joined_ends|exact G1].
    + constructor; [now apply all_but_last|exact G2].
Qed.
Lemma joined_concat ls : joined (List.concat ls) = joined (map joined ls).
Proof. induction ls as [|l ls IH]; [reflexivity|]. cbn [List.concat map]. rewrite joined_app, IH. reflexivity. Qed.
Lemma part_pieces (Q : string -> Prop) : part_closed Q -> forall pieces, Forall ends_line (removelast pieces) -> Q (joined pieces) -> Forall Q pieces.
Proof.
  intros QC. induction pieces as [|x l IH]; intros F H; [constructor|]. destruct l as [|y l].
  - cbn in H. rewrite append_nil in H. now constructor.
  - rewrite removelast_cons in F by discriminate. inversion F as [|? ? EX F']; subst. destruct (QC x (joined (y :: l)) EX H). constructor; auto.
Qed.
Section Custom.
  Variables (dir : data_dir) (k : agg_kind) (text : string) (agg : invocation) (flags : list flag_el) (c : civ) (i : Z) (B : behaviour) (Q : string -> Prop).
  Hypothesis P : parse dir text = Ok agg.
  Hypothesis F : flags_only (flag_option_list agg) flags.
  Hypothesis K : k <> ADJ_LINES_FUNC.
  Hypothesis R : reads_one c i.
  Hypothesis QC : part_closed Q.
  Let f s sd x := run B sd c (put i x s).
  Lemma custom_takes n : takes_many k n -> SpecMapper.takes k n.
  Proof. intros (_ & T). split; [contradiction|exact T]. Qed.
  Lemma custom_f s sd x : f s sd x = B sd (v_cmd c) (map (wflag_of c s) (v_flags c)) (map (word_of c s) (v_ops c)) [x].
  Proof. apply put_run. exact R. Qed.
  Lemma custom_sound : combines B agg k c i Q -> parallel_ok B dir (custom_chunks k text) c i (takes_many k) Q.
  Proof.
    intros (ST & CO) s t seed FR AR HQ (E & CU).
    assert (EV : forall t, fresh_plan c t -> arity (takes_many k) t -> Forall ends_line (removelast (map s (parts t))) -> Q (joined (map s (parts t))) ->
      evaluates B dir (custom_chunks k text) c s t (f s 0 (joined (map s (parts t))))).
    { clear t FR AR HQ E CU seed. induction t as [x y seed|o seed ts IH] using plan_rect'; intros FR AR CU HQ.
      - destruct FR as (ND & FR). cbn in *. inversion ND as [|? ? Ni _]; subst.
        destruct (mapper_run (custom_chunks k text) c i x y R eq_refl eq_refl) as (m & G & W & E); [intros ->; apply Ni; now left|apply FR; now left|apply FR; right; now left|].
        rewrite append_nil in *. unfold f. rewrite (ST s 0 seed _ HQ). fold (f s seed (s x)). rewrite custom_f, <- E. now constructor.
      - pose proof (fresh_children _ _ _ _ FR) as FC. cbn in AR. destruct AR as (AN & AR). apply arity_children in AR.
        assert (G : map s (parts (Node o seed ts)) = List.concat (map (fun t => map s (parts t)) ts)).
        { cbn [parts]. rewrite flat_map_concat_map, concat_map, map_map. reflexivity. }
        rewrite G in *. destruct (groups_ends (map (fun t => map s (parts t)) ts)) as (G1 & G2); [|exact CU|].
        { apply Forall_map. rewrite Forall_forall in *. intros t I X. apply map_eq_nil in X. revert X. eapply parts_nonempty; [|apply AR; exact I]. now intros n (NZ & _). }
        rewrite joined_concat in *. set (pieces := map joined (map (fun t => map s (parts t)) ts)) in *.
        assert (QP : Forall Q pieces) by (now apply part_pieces).
        assert (LP : length pieces = length ts) by (unfold pieces; now rewrite !map_length).
        unfold f. rewrite (CO s 0 seed pieces) by (rewrite ?LP; assumption).
        destruct (string_run dir k text c (map root ts) o (map (f s 0) pieces) agg flags) as (a & GA & W & E); auto.
        + rewrite map_length. now apply custom_takes.
        + apply roots_nodup. apply FR.
        + now rewrite !map_length, LP.
        + fold (f s 0). rewrite <- (E B seed s). econstructor; [|exact GA|exact W].
          unfold pieces. rewrite !map_map. apply all_evaluate. rewrite Forall_forall in *. intros t I. apply IH; auto.
          * apply G2. now apply in_map_iff; exists t.
          * apply QP. unfold pieces. rewrite map_map. now apply in_map_iff; exists t. }
    specialize (EV t FR AR CU). rewrite <- E in EV. specialize (EV HQ).
    assert (X : f s 0 (s i) = run B seed c s).
    { unfold f. rewrite (ST s 0 seed _ HQ). rewrite (put_run B _ c i s _ R). symmetry. now apply run_original. }
    now rewrite <- X.
  Qed.
  Hypothesis T : tight c.
  (** A plan with one node, for any parts *)
  Definition zs (z : Z) (n : nat) : list Z := map (fun j => (z + Z.of_nat j)%Z) (seq 0 n).
  Lemma zs_in z n v : In v (zs z n) <-> (z <= v < z + Z.of_nat n)%Z.
  Proof.
    unfold zs. rewrite in_map_iff. split.
    - intros (j & <- & I). apply in_seq in I. lia.
    - intros H. exists (Z.to_nat (v - z)). split; [lia|]. apply in_seq. lia.
  Qed.
  Lemma zs_nodup z n : NoDup (zs z n).
  Proof. apply FinFun.Injective_map_NoDup; [intros a b H; lia|apply seq_NoDup]. Qed.
  Lemma custom_complete : parallel_ok B dir (custom_chunks k text) c i (takes_many k) Q -> combines B agg k c i Q.
  Proof.
    intros OK. destruct (fresh_vars c i T) as (z & Z1 & Z2).
    assert (LOC : forall s s' sd x, (forall v, In v (vars c) -> v <> i -> s v = s' v) -> f s sd x = f s' sd x).
    { intros s s' sd x H. rewrite !custom_f. now destruct (words_only c i s s' R H) as (-> & ->). }
    assert (ST : forall s sd sd' x, Q x -> f s sd x = f s sd' x).
    { intros s sd sd' x HQ. set (s' := connect [i; z] [x; x] s). set (t := Leaf z (z + 1)%Z sd').
      assert (Si : s' i = x) by (unfold s'; cbn; now rewrite Z.eqb_refl).
      assert (Sz : s' z = x) by (unfold s'; cbn; destruct (Z.eqb_spec z i); [lia|]; now rewrite Z.eqb_refl).
      assert (FR : fresh_plan c t) by (split; [cbn; repeat constructor; cbn; lia|]; intros v J; apply Z2; cbn in J; lia).
      assert (E : evaluates B dir (custom_chunks k text) c s' t (run B sd c s')).
      { apply OK; [exact FR|exact Logic.I|now rewrite Si|]. cbn [parts t map]. rewrite Si, Sz. split; [cbn; now rewrite append_nil|constructor]. }
      destruct (mapper_run (custom_chunks k text) c i z (z + 1)%Z R eq_refl eq_refl) as (m & G & W & EM); [lia|apply Z2; lia|apply Z2; lia|].
      assert (E' : evaluates B dir (custom_chunks k text) c s' t (run B sd' m s')) by now constructor.
      pose proof (C50_one_result _ _ _ _ _ _ _ _ E E') as X. rewrite (run_original B sd c i s' R), EM, Si, Sz in X.
      rewrite !(LOC s s' _ x), !custom_f; [exact X|intros v I N; symmetry; apply connect_out; intros [J|[J|[]]]; [congruence|]; apply (Z2 z); [lia|now rewrite J]..]. }
    split; [exact ST|]. intros s sd sd' pieces TK EL HQ. set (n := length pieces) in *.
    set (s' := connect (i :: zs z n) (joined pieces :: pieces) s).
    set (ts := map (fun j => Leaf (z + Z.of_nat j)%Z (z + Z.of_nat (n + j))%Z sd) (seq 0 n)). set (o := (z + Z.of_nat (n + n))%Z). set (t := Node o sd' ts).
    assert (PT : parts t = zs z n).
    { unfold t, ts, zs. cbn [parts]. rewrite flat_map_concat_map, map_map. cbn [parts]. generalize (seq 0 n) as l. induction l as [|j l IH]; [reflexivity|]. cbn. now rewrite IH. }
    assert (NI : ~ In i (zs z n)) by (rewrite zs_in; lia).
    assert (Si : s' i = joined pieces) by (unfold s'; cbn; now rewrite Z.eqb_refl).
    assert (ND : NoDup (i :: zs z n)) by (constructor; [exact NI|apply zs_nodup]).
    assert (LZ : length (zs z n) = n) by (unfold zs; now rewrite map_length, seq_length).
    assert (SP : map s' (parts t) = pieces).
    { rewrite PT. pose proof (connect_in (i :: zs z n) (joined pieces :: pieces) s ND) as H. cbn [length] in H. rewrite LZ in H. specialize (H eq_refl).
      fold s' in H. cbn [map] in H. congruence. }
    assert (RT : map root ts = zs (z + Z.of_nat n)%Z n).
    { unfold ts, zs. rewrite map_map. apply map_ext. intros j. cbn. lia. }
    assert (PV : forall v, In v (plan_vars t) -> (z <= v)%Z).
    { intros v [<-|J]; [unfold o; lia|]. apply in_flat_map in J as (u & J & JV). apply in_map_iff in J as (j & <- & J). cbn in JV. lia. }
    assert (FR : fresh_plan c t).
    { split; [|intros v J; apply Z2; now apply PV]. cbn [plan_vars t]. constructor.
      - intros J. apply in_flat_map in J as (u & J & JV). apply in_map_iff in J as (j & <- & J). apply in_seq in J. cbn in JV. unfold o in JV. lia.
      - unfold ts. clear. assert (H : forall l, NoDup l -> (forall j, In j l -> j < n) ->
          NoDup (flat_map plan_vars (map (fun j => Leaf (z + Z.of_nat j) (z + Z.of_nat (n + j)) sd) l))).
        { induction l as [|j l IH]; intros N H; [constructor|]. inversion N as [|? ? N1 N2]; subst. cbn [map flat_map plan_vars app].
          assert (X : forall v, In v (flat_map plan_vars (map (fun j => Leaf (z + Z.of_nat j) (z + Z.of_nat (n + j)) sd) l)) ->
            exists j', In j' l /\ (v = z + Z.of_nat j' \/ v = z + Z.of_nat (n + j'))%Z).
          { intros v J. apply in_flat_map in J as (u & J & JV). apply in_map_iff in J as (j' & <- & J). exists j'. split; [exact J|]. cbn in JV. intuition. }
          assert (Hj : j < n) by (apply H; now left).
          assert (HL : forall j', In j' l -> j' < n /\ j' <> j) by (intros j' J; split; [apply H; now right|intros ->; contradiction]).
          constructor; [|constructor]; [intros [E|J]; [lia|]| |apply IH; [exact N2|intros j' J; apply H; now right]].
          - apply X in J as (j' & J & E). specialize (HL j' J). lia.
          - intros J. apply X in J as (j' & J & E). specialize (HL j' J). lia. }
        apply H; [apply seq_NoDup|]. intros j J. apply in_seq in J. lia. }
    assert (AR : arity (takes_many k) t).
    { cbn [arity t]. unfold ts at 1. rewrite map_length, seq_length. split; [exact TK|]. unfold ts. clear. generalize (seq 0 n) as l. induction l; cbn; auto. }
    assert (E : evaluates B dir (custom_chunks k text) c s' t (run B sd c s')).
    { apply OK; [exact FR|exact AR|now rewrite Si|]. rewrite Si, SP. split; [reflexivity|exact EL]. }
    assert (LOC' : forall sd x, f s sd x = f s' sd x).
    { intros sd0 x. apply LOC. intros v I N. symmetry. apply connect_out. intros [J|J]; [congruence|]. apply zs_in in J. apply (Z2 v); [lia|exact I]. }
    assert (EVL : evaluate_all B dir (custom_chunks k text) c s' ts (map (f s sd) pieces)).
    { rewrite <- SP, PT. unfold ts, zs. rewrite !map_map. rewrite <- (map_map (fun j => Leaf (z + Z.of_nat j) (z + Z.of_nat (n + j)) sd) (fun u => match u with Leaf x _ _ => f s sd (s' x) | _ => "" end)).
      apply all_evaluate. apply Forall_map, Forall_forall. intros j J. apply in_seq in J.
      destruct (mapper_run (custom_chunks k text) c i (z + Z.of_nat j)%Z (z + Z.of_nat (n + j))%Z R eq_refl eq_refl) as (m & G & W & EM); [lia|apply Z2; lia|apply Z2; lia|].
      rewrite LOC', custom_f, <- EM. now constructor. }
    destruct (string_run dir k text c (map root ts) o (map (f s sd) pieces) agg flags) as (a & GA & W & EA); auto.
    { rewrite RT. unfold zs. rewrite map_length, seq_length. now apply custom_takes. }
    { rewrite RT. constructor; [rewrite zs_in; unfold o; lia|apply zs_nodup]. }
    { rewrite RT. unfold zs. now rewrite !map_length, seq_length. }
    assert (E' : evaluates B dir (custom_chunks k text) c s' t (aggregated B agg sd' (map (f s sd) pieces))).
    { rewrite <- (EA B sd' s'). econstructor; [exact EVL|exact GA|exact W]. }
    pose proof (C50_one_result _ _ _ _ _ _ _ _ E E') as X.
    fold (f s sd). rewrite <- X, (run_original B sd c i s' R), Si. fold (f s sd (joined pieces)). now rewrite LOC', custom_f.
  Qed.
End Custom.
