(** * Proofs about sound parallelization *)
From Coq Require Import Lia.
Require Import Verif.PyBase Verif.JsonData Verif.Parser Verif.Access Verif.IOInfo Verif.IOVars
  Verif.Transformers Verif.ParaTypes Verif.ParaGen Verif.MapperAgg Verif.SpecLists Verif.SpecIO Verif.SpecVars Verif.SpecPara Verif.SpecMapper
  Verif.ListFacts Verif.IOVarsFacts Verif.IOVarsProps Verif.MapperFacts Verif.SpecParser Verif.ParserFacts Verif.ParserProps
  Verif.ShippedData Verif.P_Para Verif.P_Mapper Verif.SpecSem Verif.SemFacts Verif.SemRun.

(** ** Flags *)
Lemma given_iff fl names : given fl names = true <-> exists n, In n names /\ In n (map wflag_name fl).
Proof.
  unfold given. rewrite existsb_exists. split.
  - intros (f & I & M). apply mem_In in M. exists (wflag_name f). split; [exact M|now apply in_map].
  - intros (n & M & I). apply in_map_iff in I as (f & <- & I). exists f. split; [exact I|now apply mem_In].
Qed.
Lemma names_eq inv c s : invocation_of inv c -> map wflag_name (map (wflag_of c s) (v_flags c)) = map fo_name (flag_option_list inv).
Proof. intros (_ & I). rewrite <- I, map_map. apply map_ext. intros []; reflexivity. Qed.
Lemma uses_in inv n : uses inv n <-> In n (map fo_name (flag_option_list inv)).
Proof. unfold uses. rewrite in_map_iff. split; intros (f & A & B); exists f; auto. Qed.
Lemma given_uses inv c s names : invocation_of inv c ->
  given (map (wflag_of c s) (v_flags c)) names = true <-> uses_any inv names.
Proof.
  intros I. rewrite given_iff, (names_eq _ _ _ I). unfold uses_any.
  split; intros (n & A & B); exists n; (split; [exact A|]); now rewrite uses_in in *.
Qed.
Lemma given_unused inv c s names : invocation_of inv c -> ~ uses_any inv names ->
  given (map (wflag_of c s) (v_flags c)) names = false.
Proof. intros I U. apply not_true_is_false. now rewrite (given_uses inv). Qed.
Lemma unused_sub inv l l' : ~ uses_any inv l -> incl l' l -> ~ uses_any inv l'.
Proof. intros U I (n & A & B). apply U. exists n. auto. Qed.

(** ** sort *)
Lemma sort_parallelizers inv p : cmd_name inv = "sort" -> offered shipped_dir inv p ->
  ~ uses_any inv sort_excluded /\ p_mapper p = seq_mapper /\ p_info_mapper_aggregator p = 0 /\
  p_aggregator p = sort_merge /\ (p_splitter p = CONSEC_CHUNKS \/ p_splitter p = ROUND_ROBIN_UNWRAP_FLAG).
Proof.
  intros C (i & k & ls & i' & l & G & CA & I & J).
  assert (A : annotated shipped_dir inv (Some (parallelizer_list i, is_commutative i))) by (apply C25_exact; now rewrite G).
  assert (E : (~ uses_any inv sort_excluded /\ parallelizer_list i = [chunks sort_merge]) \/ parallelizer_list i = []).
  { inversion A; subst; auto; exfalso; rewrite C in *; cbn in *; intuition congruence. }
  assert (IC : is_commutative i = true).
  { inversion A; subst; auto; exfalso; rewrite C in *; cbn in *; intuition congruence. }
  destruct (C27_inferred i) as (copies & CC & _).
  destruct (C28_every_call_adds i copies k ls i' IC CC CA) as (L & N).
  apply In_nth_error in I as (m & I).
  assert (m < k) by (rewrite <- L; apply nth_error_Some; congruence).
  rewrite N in I by assumption. injection I as <-. apply in_app_iff in J.
  assert (X : forall x, In x (List.concat (repeat copies (S m))) -> In x copies).
  { intros x J'. apply in_concat in J' as (y & Y & J'). apply repeat_spec in Y. now subst. }
  destruct E as [(U & E)|E]; rewrite E in *.
  - split; [exact U|].
    assert (Y : copies = [with_splitter ROUND_ROBIN_UNWRAP_FLAG (chunks sort_merge)]).
    { inversion CC as [|? ? ? _ CC'|? ? ? Z _]; subst; [inversion CC'; subst; reflexivity|now destruct Z]. }
    destruct J as [[<-|[]]|J]; [cbn; auto|]. apply X in J. rewrite Y in J. destruct J as [<-|[]]. cbn. auto.
  - inversion CC; subst. destruct J as [[]|J]. apply X in J as [].
Qed.
Lemma order_filter (l k : list flag_el) c s : kept (named sort_order_flags) l k ->
  given (map (wflag_of c s) l) ["-R"; "--random-source"] = false ->
  filter (fun f => mem (wflag_name f) ordering_flags) (map (wflag_of c s) k ++ [WFlag "-m"]) =
  filter (fun f => mem (wflag_name f) ordering_flags) (map (wflag_of c s) l).
Proof.
  rewrite filter_app. cbn [filter wflag_name]. change (mem "-m" ordering_flags) with false. rewrite app_nil_r.
  assert (W : forall f, wflag_name (wflag_of c s f) = fe_name f) by (intros []; reflexivity).
  induction 1 as [|x l k H K IH|x l k H K IH]; intros G; [reflexivity| |]; cbn [map filter].
  - assert (G' : given (map (wflag_of c s) l) ["-R"; "--random-source"] = false).
    { unfold given in *. cbn [map existsb] in G. now apply orb_false_iff in G. }
    rewrite IH by exact G'. reflexivity.
  - unfold given in G. cbn [map existsb] in G. apply orb_false_iff in G as (G1 & G2). rewrite IH by exact G2.
    replace (mem (wflag_name (wflag_of c s x)) ordering_flags) with false; [reflexivity|].
    symmetry. apply mem_not_In. intros I. rewrite W in *. apply mem_not_In in G1. unfold named in H.
    cbn in *. intuition.
Qed.
Lemma line_le_ext o seed seed' fl fl' : key_le o seed fl = key_le o seed' fl' ->
  given fl ["-s"; "-u"] = given fl' ["-s"; "-u"] -> given fl ["-r"] = given fl' ["-r"] ->
  line_le o seed fl = line_le o seed' fl'.
Proof. intros E1 E2 E3. unfold line_le. now rewrite E1, E2, E3. Qed.
Lemma sort_clean le l : Forall (fun r => has_char newline r = false) l -> Forall (fun r => has_char newline r = false) (sort_lines le l).
Proof. apply Permutation_Forall, sort_perm. Qed.
Lemma lines_clean l : Forall (fun r => has_char newline r = false) (flat_map lines l).
Proof. induction l; cbn; [constructor|]. apply Forall_app. split; [apply records_clean|auto]. Qed.
Lemma given_false_cons f fl names : given (f :: fl) names = false <-> mem (wflag_name f) names = false /\ given fl names = false.
Proof. unfold given. cbn. apply orb_false_iff. Qed.
Lemma given_sub fl fl' names : incl fl' fl -> given fl names = false -> given fl' names = false.
Proof.
  intros I G. apply not_true_is_false. intros G'. unfold given in *. apply existsb_exists in G' as (f & J & M).
  assert (X : existsb (fun f => mem (wflag_name f) names) fl = true) by (apply existsb_exists; eauto). congruence.
Qed.
Lemma given_app fl fl' names : given (fl ++ fl') names = given fl names || given fl' names.
Proof. apply existsb_app. Qed.
Lemma given_names_sub fl l l' : incl l' l -> given fl l = false -> given fl l' = false.
Proof.
  intros I G. apply not_true_is_false. intros G'. rewrite given_iff in G'. destruct G' as (n & A & B).
  assert (X : given fl l = true) by (apply given_iff; eauto). congruence.
Qed.

Lemma sort_sound text inv p c v B o dir :
  parse shipped_dir text = Ok inv -> cmd_name inv = "sort" -> offered shipped_dir inv p ->
  invocation_of inv c -> reads_one c v -> ~ uses_any inv sort_never ->
  is_sort o B -> sort_oracle_ok o ->
  (forall s seed seed', key_le o seed (map (wflag_of c s) (v_flags c)) = key_le o seed' (map (wflag_of c s) (v_flags c))) ->
  parallel_ok B dir p c v (fun n => n = 2) (fun _ => True).
Proof.
  intros PA C G IN R U SB (OK1 & OK2) SEED s t seed FR AR _ DI.
  destruct (sort_parallelizers inv p C G) as (UX & M & N & A & S).
  set (fl := map (wflag_of c s) (v_flags c)) in *.
  assert (KN : known sort_names fl).
  { eapply parse_known; eauto; [rewrite C; left; vm_compute; reflexivity|vm_compute; reflexivity]. }
  assert (X1 : given fl sort_excluded = false) by (eapply given_unused; eauto).
  assert (X2 : given fl sort_never = false) by (eapply given_unused; eauto).
  set (le := line_le o 0 fl).
  assert (LE : forall sd, line_le o sd fl = le) by (intros sd; apply line_le_ext; auto; apply SEED).
  assert (PL : given fl ["-s"; "-u"] = false) by (eapply given_names_sub; [|exact X1]; intros x [<-|[<-|[]]]; cbn; auto 10).
  assert (F1 : given fl ["--help"; "--version"] = false) by (eapply given_names_sub; [|exact X2]; intros x [<-|[<-|[]]]; cbn; auto).
  assert (F2 : given fl ["-c"; "-C"] = false) by (eapply given_names_sub; [|exact X1]; intros x [<-|[<-|[]]]; cbn; auto 10).
  assert (F3 : given fl ["-z"] = false) by (eapply given_names_sub; [|exact X1]; intros x [<-|[]]; cbn; auto 10).
  assert (F4 : given fl ["-m"] = false) by (eapply given_names_sub; [|exact X1]; intros x [<-|[]]; cbn; auto 10).
  assert (F5 : given fl ["-u"] = false) by (eapply given_names_sub; [|exact X1]; intros x [<-|[]]; cbn; auto 10).
  assert (F6 : given fl ["--debug"] = false) by (eapply given_names_sub; [|exact X2]; intros x [<-|[]]; cbn; auto 10).
  assert (F7 : given fl ["--files0-from"; "-o"] = false).
  { apply not_true_is_false. rewrite given_iff. intros (n & [<-|[<-|[]]] & Q).
    - assert (E : given fl sort_excluded = true) by (apply given_iff; exists "--files0-from"; split; [cbn; auto 10|exact Q]). congruence.
    - assert (E : given fl sort_never = true) by (apply given_iff; exists "-o"; split; [cbn; auto 10|exact Q]). congruence. }
  assert (ONE : forall sd ops inputs, B sd "sort" fl ops inputs = unlines (sort_lines le (flat_map lines inputs))).
  { intros sd ops inputs. rewrite SB by assumption. unfold sort_output. now rewrite F1, F2, F3, F4, F5, F6, LE. }
  assert (CN : v_cmd c = "sort") by (destruct IN as (-> & _); exact C).
  assert (T1 : forall x y, le x y = true \/ le y x = true) by (intros; apply line_total; auto).
  assert (T2 : forall x y z, le x y = true -> le y z = true -> le x z = true) by (intros; eapply line_trans; eauto).
  assert (T3 : forall x y, le x y = true -> le y x = true -> x = y) by (intros; eapply line_antisym; eauto).
  assert (P : Permutation (lines (s v)) (flat_map lines (map s (parts t)))).
  { destruct S as [S|S]; rewrite S in DI; [|exact DI]. rewrite (cut_lines _ _ DI). reflexivity. }
  rewrite (run_original B seed c v s R), CN. fold fl. rewrite ONE. cbn [flat_map]. rewrite app_nil_r.
  rewrite (sort_of_perm le T1 T2 T3 _ _ P). clear P DI S.
  revert FR AR. induction t as [x y sd|q sd ts IH] using plan_rect'; intros FR AR.
  - destruct FR as (ND & FR). cbn in ND, FR. inversion ND as [|? ? Ni _]; subst.
    destruct (mapper_run p c v x y R M N) as (m & GM & W & E); [intros ->; apply Ni; now left|apply FR; now left|apply FR; right; now left|].
    specialize (E B sd s). rewrite CN in E. fold fl in E. rewrite ONE in E. cbn [parts map]. rewrite <- E. now constructor.
  - pose proof (fresh_children _ _ _ _ FR) as FC. cbn in AR. destruct AR as (AN & AR). apply arity_children in AR.
    set (f := fun t => unlines (sort_lines le (flat_map lines (map s (parts t))))) in *.
    assert (EV : evaluate_all B dir p c s ts (map f ts)).
    { apply all_evaluate. rewrite Forall_forall in *. intros t' I'. apply IH; auto. }
    destruct (sort_run dir c v (map root ts) q (map f ts) R) as (a & order & GA & W & KO & E).
    + apply roots_nodup. apply FR.
    + now rewrite map_length.
    + now rewrite map_length.
    + intros w Iw. apply FR. destruct Iw as [->|Iw]; [now left|]. right. apply in_map_iff in Iw as (t' & <- & Iw).
      apply in_flat_map. exists t'. auto using root_in.
    + set (fl' := map (wflag_of c s) order ++ [WFlag "-m"]) in *.
      assert (SUB : incl (map (wflag_of c s) order) fl).
      { intros w Iw. apply in_map_iff in Iw as (w' & <- & Iw). apply in_map. now apply (kept_in _ _ _ _ KO) in Iw. }
      assert (OF : filter (fun f => mem (wflag_name f) ordering_flags) fl' = filter (fun f => mem (wflag_name f) ordering_flags) fl).
      { apply order_filter; auto. eapply given_names_sub; [|exact X1]. intros w [<-|[<-|[]]]; cbn; auto 10. }
      assert (GV : forall names, given fl names = false -> given fl' names = given [WFlag "-m"] names).
      { intros names Z. unfold fl'. rewrite given_app. now rewrite (given_sub _ _ _ SUB Z). }
      assert (GR : given fl' ["-r"] = given fl ["-r"]).
      { assert (Y : forall z, given z ["-r"] = given (filter (fun f => mem (wflag_name f) ordering_flags) z) ["-r"]).
        { clear. induction z as [|w z IH]; [reflexivity|]. unfold given in *. cbn [existsb filter].
          destruct (mem (wflag_name w) ordering_flags) eqn:Q; cbn [existsb]; rewrite <- IH; [reflexivity|].
          replace (mem (wflag_name w) ["-r"]) with false; [reflexivity|]. symmetry. apply mem_not_In. apply mem_not_In in Q.
          intros [Z|[]]. apply Q. rewrite <- Z. cbn. auto 20. }
        rewrite Y, OF, <- Y. reflexivity. }
      assert (LE' : line_le o sd fl' = le).
      { rewrite <- (LE sd). apply line_le_ext; [now apply OK2| |exact GR]. rewrite GV by exact PL. rewrite PL. reflexivity. }
      assert (KN' : known sort_names fl').
      { unfold known, fl'. apply Forall_app. split; [|constructor; [cbn; auto 20|constructor]]. unfold known in KN.
        rewrite Forall_forall in KN |- *. intros z Iz. apply KN. now apply SUB. }
      specialize (E B sd s). fold fl' in E. rewrite CN, SB in E; [|exact KN'|rewrite GV by exact F7; reflexivity].
      unfold sort_output in E. rewrite (GV _ F1), (GV _ F2), (GV _ F3), (GV _ F5), (GV _ F6), LE' in E. cbn [given existsb wflag_name mem String.eqb Ascii.eqb Bool.eqb orb andb] in E.
      assert (GM : given fl' ["-m"] = true) by (unfold fl'; rewrite given_app; apply orb_true_r). 
      rewrite ?GM in E.
      replace (unlines (sort_lines le (flat_map lines (map s (parts (Node q sd ts)))))) with (run B sd a (connect (map root ts) (map f ts) s)).
      * econstructor; eauto. rewrite A. exact GA.
      * rewrite E. unfold unlines. f_equal.
        destruct ts as [|t1 [|t2 [|? ?]]]; try discriminate AN. cbn [map fold_right parts flat_map].
        unfold f, unlines. rewrite !records_terminated by auto using sort_clean, lines_clean.
        rewrite merge_nil_r, (merge_of_sorts le T1 T2 T3), app_nil_r, map_app, flat_map_app. reflexivity.
Qed.

(** ** A plan has one result. *)
Lemma evaluates_fun B dir p c s t : forall r r', evaluates B dir p c s t r -> evaluates B dir p c s t r' -> r = r'.
Proof.
  induction t as [x y sd|q sd ts IH] using plan_rect'; intros r r' E E'; inversion E; subst; inversion E'; subst.
  - congruence.
  - assert (X : outs = outs0).
    { clear -IH H2 H3. revert outs outs0 H2 H3. induction ts as [|t ts IHt]; intros o1 o2 E1 E2; inversion E1; subst; inversion E2; subst; [reflexivity|].
      inversion IH; subst. f_equal; eauto. }
    congruence.
Qed.

(** ** Commands that work record by record *)
Lemma stateless_of inv p : offered shipped_dir inv p -> In (cmd_name inv) ["cut"; "xargs"; "grep"; "sed"] ->
  In p (stateless SpecPara.concat).
Proof.
  intros (i & k & ls & i' & l & G & CA & IL & I) C. apply (C28_only_sort shipped_dir inv i k ls i' l G) in CA as ->; auto.
  2: { intros [E|[E|[]]]; rewrite <- E in C; cbn in C; intuition discriminate. }
  assert (A : annotated shipped_dir inv (Some (parallelizer_list i, is_commutative i))) by (apply C25_exact; now rewrite G).
  remember (parallelizer_list i) as l eqn:El. clear El.
  inversion A; subst; auto; try solve [destruct I]; exfalso; cbn in *; intuition congruence.
Qed.

(** ** Converse for concatenation: two pieces *)
Lemma fresh_vars c i : tight c -> exists z, (z > i)%Z /\ forall v, (z <= v)%Z -> v_acc c v = None /\ ~ In v (vars c).
Proof.
  intros (_ & T).
  assert (M : exists z, (z > i)%Z /\ forall v, In v (vars c) -> (v < z)%Z).
  { generalize (vars c). induction l as [|w l (z & Z1 & Z2)]; [exists (i + 1)%Z; split; [lia|intros v []]|].
    exists (Z.max (w + 1) z). split; [lia|]. intros v [<-|I]; [lia|]. specialize (Z2 v I). lia. }
  destruct M as (z & Z1 & Z2). exists z. split; [exact Z1|]. intros v L.
  assert (N : ~ In v (vars c)) by (intros I; specialize (Z2 v I); lia).
  split; [|exact N]. destruct (v_acc c v) eqn:E; [|reflexivity]. exfalso. apply N, T. congruence.
Qed.
Lemma words_only c i s s' : reads_one c i -> (forall v, In v (vars c) -> v <> i -> s v = s' v) ->
  map (wflag_of c s) (v_flags c) = map (wflag_of c s') (v_flags c) /\ map (word_of c s) (v_ops c) = map (word_of c s') (v_ops c).
Proof.
  intros (_ & K & _ & _ & Hv) E.
  assert (W : forall v, In v (vars c) -> word_of c s (PVar v) = word_of c s' (PVar v)).
  { intros v I. cbn. destruct (v_acc c v) as [[]|] eqn:A; try reflexivity; rewrite (E v I); try reflexivity;
      intros ->; pose proof (proj1 (kept_in _ _ _ i K) (or_introl eq_refl)) as (_ & Z); unfold with_access in Z; congruence. }
  split; apply map_ext_in.
  - intros [n|n a|n a] I; cbn; [reflexivity|destruct (Hv _ _ I)|]. f_equal. destruct a; try reflexivity. apply W. eapply in_vars_flag; eauto.
  - intros a I. destruct a; try reflexivity. apply W. now apply in_vars_op.
Qed.
Lemma eval_leaf B dir p c s x y sd r : evaluates B dir p c s (Leaf x y sd) r ->
  exists m, get_actual_mapper p c x y [] = Ok (Some m) /\ r = run B sd m s.
Proof. inversion 1; subst; eauto. Qed.
Lemma eval_node B dir p c s o sd ts r : evaluates B dir p c s (Node o sd ts) r ->
  exists outs k a, evaluate_all B dir p c s ts outs /\ get_aggregator dir (p_aggregator p) c (map root ts) o = Ok (Some (k, a)) /\
    r = run B sd a (connect (map root ts) outs s).
Proof. inversion 1; subst; eauto 6. Qed.
Lemma eval_cons B dir p c s t ts rs : evaluate_all B dir p c s (t :: ts) rs ->
  exists r rs', rs = r :: rs' /\ evaluates B dir p c s t r /\ evaluate_all B dir p c s ts rs'.
Proof. inversion 1; subst; eauto. Qed.
Lemma concat_complete B dir p c i Q : reads_one c i -> tight c -> In p (stateless SpecPara.concat) -> is_cat B ->
  parallel_ok B dir p c i (fun n => n <> 0) Q ->
  forall s sd sd1 sd2 a b, Q (a +++ b) -> ends_line a ->
    let f sd x := B sd (v_cmd c) (map (wflag_of c s) (v_flags c)) (map (word_of c s) (v_ops c)) [x] in
    f sd (a +++ b) = f sd1 a +++ f sd2 b.
Proof.
  intros R T I CB OK s sd sd1 sd2 a b HQ EA f.
  destruct (fresh_vars c i T) as (z & Z1 & Z2).
  set (s' := connect [i; z; z + 1]%Z [a +++ b; a; b] s).
  set (t := Node (z + 4)%Z 0 [Leaf z (z + 2)%Z sd1; Leaf (z + 1)%Z (z + 3)%Z sd2]).
  assert (Si : s' i = a +++ b) by (unfold s'; cbn; now rewrite Z.eqb_refl).
  assert (S1 : s' z = a).
  { unfold s'; cbn. destruct (Z.eqb_spec z i); [lia|]. now rewrite Z.eqb_refl. }
  assert (S2 : s' (z + 1)%Z = b).
  { unfold s'; cbn -[Z.add]. destruct (Z.eqb_spec (z + 1) i); [lia|]. destruct (Z.eqb_spec (z + 1) z); [lia|]. now rewrite Z.eqb_refl. }
  assert (W : map (wflag_of c s') (v_flags c) = map (wflag_of c s) (v_flags c) /\ map (word_of c s') (v_ops c) = map (word_of c s) (v_ops c)).
  { apply (words_only c i s' s R). intros v J N. apply connect_out. intros [E|[E|[E|[]]]]; [now apply N| |]; apply (Z2 v); auto; lia. }
  destruct W as (W1 & W2).
  specialize (OK s' t sd).
  assert (E : evaluates B dir p c s' t (run B sd c s')).
  { apply OK.
    - split; [cbn; repeat constructor; cbn; lia|]. intros v J. apply Z2. cbn in J. lia.
    - cbn. auto.
    - now rewrite Si.
    - cbn [parts t flat_map map app]. rewrite Si, S1, S2.
      assert (X : cut_at_lines (a +++ b) [a; b]) by (split; [cbn; now rewrite append_nil|apply (Forall_cons a EA), Forall_nil]).
      destruct I as [<-|[<-|[]]]; exact X. }
  assert (M : p_mapper p = seq_mapper /\ p_info_mapper_aggregator p = 0 /\ p_aggregator p = SpecPara.concat) by (destruct I as [<-|[<-|[]]]; auto).
  destruct M as (M1 & M2 & M3).
  rewrite (run_original B sd c i s' R), W1, W2, Si in E. fold (f sd (a +++ b)) in E.
  assert (X : forall x y, x <> y -> (z <= x)%Z -> (z <= y)%Z -> exists m, get_actual_mapper p c x y [] = Ok (Some m) /\ forall sd, run B sd m s' = f sd (s' x)).
  { intros x y N L1 L2. destruct (mapper_run p c i x y R M1 M2 N (Z2 x L1) (Z2 y L2)) as (m & G & _ & Rm). exists m. split; [exact G|].
    intros sd'. rewrite Rm, W1, W2. reflexivity. }
  destruct (X z (z + 2)%Z) as (m1 & G1 & R1); [lia..|]. destruct (X (z + 1)%Z (z + 3)%Z) as (m2 & G2 & R2); [lia..|].
  apply eval_node in E as (outs & k & ag & EV & GA & ER).
  apply eval_cons in EV as (r1 & rs & -> & E1 & EV). apply eval_cons in EV as (r2 & rs' & -> & E2 & EV). inversion EV; subst rs'.
  apply eval_leaf in E1 as (m1' & G1' & ->). apply eval_leaf in E2 as (m2' & G2' & ->).
  assert (H1 : m1' = m1) by congruence. assert (H2 : m2' = m2) by congruence. subst m1' m2'.
  destruct (cat_run dir c [z + 2; z + 3]%Z (z + 4)%Z [run B sd1 m1 s'; run B sd2 m2 s']) as (a' & GA' & _ & RA).
  { repeat constructor; cbn; lia. }
  { reflexivity. }
  { discriminate. }
  rewrite M3 in GA. cbn [map root] in GA. assert (HA : ag = a') by congruence. subst ag.
  cbn [map root] in ER. rewrite RA in ER by exact CB. rewrite R1, R2, S1, S2 in ER. cbn [joined fold_right] in ER.
  rewrite append_nil in ER. exact ER.
Qed.

(** ** Records *)
Lemma record_distributive B c s (Q : string -> Prop) F :
  (forall a, Q a -> forall b d, a = b +++ d -> Q b /\ Q d) ->
  (forall sd x, Q x -> B sd (v_cmd c) (map (wflag_of c s) (v_flags c)) (map (word_of c s) (v_ops c)) [x] = unlines (flat_map F (lines x))) ->
  distributive B c s Q.
Proof.
  intros QC H pieces sd NE HQ CU. cbn zeta.
  assert (QP : forall x, In x pieces -> Q x).
  { clear -HQ QC. induction pieces as [|y l IH]; [intros x []|]. cbn in HQ. destruct (QC _ HQ _ _ eq_refl) as (Q1 & Q2).
    intros x [<-|I]; auto. }
  split; [intros; now rewrite !H by auto|]. rewrite H by exact HQ. rewrite (cut_lines _ _ CU).
  replace (map _ pieces) with (map (fun x => unlines (flat_map F (lines x))) pieces)
    by (apply map_ext_in; intros; now rewrite H by auto).
  clear. induction pieces as [|x l IH]; [reflexivity|]. cbn [flat_map map joined fold_right].
  rewrite flat_map_app. unfold unlines in *. rewrite terminated_app. f_equal. exact IH.
Qed.
Lemma cut_sound text inv p c v B o dir :
  parse shipped_dir text = Ok inv -> cmd_name inv = "cut" -> offered shipped_dir inv p ->
  invocation_of inv c -> reads_one c v -> ~ uses_any inv ["-z"; "--help"; "--version"] ->
  is_record_wise o "cut" cut_names B -> is_cat B ->
  parallel_ok B dir p c v (fun n => n <> 0) (fun _ => True).
Proof.
  intros PA C OF IN R U WB CB. apply concat_sound; auto.
  { eapply stateless_of; eauto. rewrite C. now left. }
  intros s. assert (CN : v_cmd c = "cut") by (destruct IN as (-> & _); exact C).
  eapply record_distributive with (F := wise_record o (map (wflag_of c s) (v_flags c)) (map (word_of c s) (v_ops c))); [auto|].
  intros sd x _. rewrite CN, WB.
  - unfold wise_output.
    rewrite (given_unused inv c s ["--help"; "--version"]), (given_unused inv c s ["-z"]);
      [reflexivity|auto|eapply unused_sub; [exact U|]|auto|eapply unused_sub; [exact U|]]; intros y; cbn; tauto.
  - eapply parse_known; eauto; [rewrite C; left; vm_compute; reflexivity|vm_compute; reflexivity].
Qed.

(** ** grep *)
Lemma at_most_none l : at_most None l = l.
Proof. induction l as [|[] l IH]; cbn; congruence. Qed.
Lemma printed_00 sel j : printed 0 0 sel j = nth j sel false.
Proof.
  unfold printed. destruct (nth j sel false) eqn:E.
  - apply existsb_exists. exists j. split.
    + apply in_seq. split; [lia|]. cbn. destruct (Nat.lt_ge_cases j (length sel)); [assumption|]. rewrite nth_overflow in E by assumption. discriminate.
    + rewrite E, Nat.add_0_r, Nat.leb_refl. reflexivity.
  - apply not_true_is_false. intros X. apply existsb_exists in X as (k & _ & X). rewrite !andb_true_iff, !Nat.leb_le in X.
    assert (k = j) by lia. subst. intuition congruence.
Qed.
Lemma print_plain show f l : forall pre off prev,
  print_lines (fun _ _ => show) [] 0 0 (map f (pre ++ l)) (length pre) off prev l =
  flat_map (fun x => if f x then show true x else []) l.
Proof.
  induction l as [|x l IH]; intros pre off prev; [reflexivity|]. cbn [print_lines flat_map]. rewrite printed_00.
  assert (N : nth (length pre) (map f (pre ++ x :: l)) false = f x).
  { rewrite map_app, app_nth2; rewrite map_length; [|lia]. now rewrite Nat.sub_diag. }
  rewrite N. specialize (IH (pre ++ [x])). rewrite <- app_assoc, app_length, Nat.add_1_r in IH. cbn [app] in IH.
  destruct (f x); rewrite IH; [|reflexivity]. now destruct prev as [[]|].
Qed.
Lemma last_number_none fl names : given fl names = false -> last_number fl names = None.
Proof.
  unfold last_number. generalize (@None nat). induction fl as [|f fl IH]; intros r G; [reflexivity|].
  apply given_false_cons in G as (G1 & G2). cbn [fold_left]. destruct f as [n|n []]; auto. cbn in G1. rewrite G1. auto.
Qed.
Lemma grep_sound text inv p c v B o dir :
  parse shipped_dir text = Ok inv -> cmd_name inv = "grep" -> offered shipped_dir inv p ->
  invocation_of inv c -> reads_one c v -> ~ uses_any inv grep_unsafe ->
  is_grep o B -> is_cat B ->
  parallel_ok B dir p c v (fun n => n <> 0) (fun input => is_text input \/ uses inv "-a").
Proof.
  intros PA C OF IN R U GB CB. apply concat_sound; auto.
  { eapply stateless_of; eauto. rewrite C. cbn; auto. }
  assert (X : ~ uses inv "-q" /\ ~ uses_any inv ["-L"; "-l"; "-c"; "-n"; "-b"]).
  { destruct OF as (i & k & ls & i' & l & G & CA & IL & I). apply (C28_only_sort shipped_dir inv i k ls i' l G) in CA as ->; auto.
    2: { rewrite C. intros [E|[E|[]]]; discriminate. }
    assert (A : annotated shipped_dir inv (Some (parallelizer_list i, is_commutative i))) by (apply C25_exact; now rewrite G).
    destruct (C32_grep_iff _ _ _ _ C A) as (H & _). assert (NE : parallelizer_list i <> []) by (intros E; now rewrite E in I).
    apply H in NE as (Q1 & [Q2|Q2]); auto. exfalso. revert Q2. eapply unused_sub; [exact U|]. intros y; cbn; tauto. }
  destruct X as (X1 & X2).
  intros s. assert (CN : v_cmd c = "grep") by (destruct IN as (-> & _); exact C).
  set (fl := map (wflag_of c s) (v_flags c)). set (ops := map (word_of c s) (v_ops c)).
  assert (GU : forall l, incl l grep_unsafe -> given fl l = false).
  { intros l I. apply (given_unused inv); [exact IN|]. now apply (unused_sub inv grep_unsafe). }
  assert (GX : forall n, In n ["-L"; "-l"; "-c"; "-n"; "-b"] -> given fl [n] = false).
  { intros n I. apply (given_unused inv); [exact IN|]. eapply unused_sub; [exact X2|]. intros y [<-|[]]. exact I. }
  assert (GQ : given fl ["-q"] = false).
  { apply (given_unused inv); [exact IN|]. intros (n & [<-|[]] & Z). contradiction. }
  assert (SM : forall l, existsb (fun n => negb (mem n grep_unsafe)) l = false -> given fl l = false).
  { intros l E. apply GU. intros n I. apply mem_In. apply not_false_iff_true. intros Z.
    assert (existsb (fun n => negb (mem n grep_unsafe)) l = true) by (apply existsb_exists; exists n; rewrite Z; auto). congruence. }
  eapply record_distributive with (F := fun x => if xorb (given fl ["-v"]) (grep_match o fl ops x) then grep_show o fl ops None None true x else []).
  { intros a [A|A] b d ->; [|tauto]. unfold is_text in A. rewrite has_char_app in A. apply orb_false_iff in A. unfold is_text. tauto. }
  intros sd x QX. rewrite CN. fold fl ops. rewrite GB.
  - unfold grep_output. rewrite (SM ["--help"; "-V"]), (SM ["-z"]), GQ, (GX "-l"), (GX "-L"), (GX "-c"), (GX "-n"), (GX "-b") by (reflexivity || cbn; auto 10).
    unfold after, before. rewrite !last_number_none by (apply SM; reflexivity). cbn [or_number Nat.add Nat.eqb].
    rewrite at_most_none. unfold unlines, lines. f_equal.
    apply (print_plain _ (fun x => xorb (given fl ["-v"]) (grep_match o fl ops x)) _ []).
  - eapply parse_known; eauto; [rewrite C; left; vm_compute; reflexivity|vm_compute; reflexivity].
  - apply SM; reflexivity.
  - destruct QX as [QX|QX]; [now left|right]. apply given_iff. exists "-a". split; [now left|]. unfold fl. rewrite (names_eq inv c s IN). now apply uses_in.
Qed.

(** ** tr *)
Lemma keep_app p a b : keep_chars p (a +++ b) = keep_chars p a +++ keep_chars p b.
Proof. induction a as [|x a IH]; cbn; [reflexivity|]. destruct (p x); cbn; now rewrite IH. Qed.
Lemma map_chars_app f a b : map_chars f (a +++ b) = map_chars f a +++ map_chars f b.
Proof. induction a as [|x a IH]; cbn; [reflexivity|]. now rewrite IH. Qed.
Lemma squeeze_end q z b : q z = false -> forall a last,
  squeeze_from last q (a +++ String z b) = squeeze_from last q (a +++ String z "") +++ squeeze_from None q b.
Proof.
  intros Z. induction a as [|x a IH]; intros last; cbn.
  - rewrite Z. cbn. f_equal. destruct b as [|y b]; [reflexivity|]. cbn.
    destruct (q y) eqn:Y; cbn; [|reflexivity]. destruct (Ascii.eqb_spec y z); [congruence|reflexivity].
  - destruct (_ && _); cbn; now rewrite IH.
Qed.
Fixpoint all_chars (P : ascii -> Prop) (s : string) : Prop := match s with "" => True | String a s' => P a /\ all_chars P s' end.
Lemma squeeze_none q s : all_chars (fun a => q a = false) s -> forall last, squeeze_from last q s = s.
Proof. induction s as [|a s IH]; cbn; [reflexivity|]. intros (A & S) last. rewrite A. cbn. now rewrite IH. Qed.
Lemma image_chars (P : ascii -> Prop) f p s : (forall a, p a = true -> P (f a)) -> all_chars P (map_chars f (keep_chars p s)).
Proof. intros H. induction s as [|a s IH]; cbn; [exact I|]. destruct (p a) eqn:E; [split; auto|exact IH]. Qed.
Lemma tr_app o fl ops a b : tr_safe o fl ops -> ends_line a ->
  tr_output o fl ops (a +++ b) = tr_output o fl ops a +++ tr_output o fl ops b.
Proof.
  intros (H1 & H2) EA. unfold tr_output. destruct (given fl ["--help"; "--version"]) eqn:G.
  { destruct H1 as [H1|H1]; [discriminate|]. now rewrite H1. }
  set (p := fun a => negb (tr_deletes o fl ops a)). set (f := tr_image o fl ops). set (q := tr_squeezes o fl ops).
  rewrite keep_app, map_chars_app. destruct H2 as [H2|[(H2 & H3)|H2]]; [| |discriminate].
  - unfold squeeze. assert (X : forall x, squeeze_from None q (map_chars f (keep_chars p x)) = map_chars f (keep_chars p x)).
    { intros x. apply squeeze_none, image_chars. intros y Y. apply H2. unfold p in Y. now apply negb_true_iff. }
    rewrite <- map_chars_app, <- keep_app, !X. now rewrite keep_app, map_chars_app.
  - destruct EA as [->|(a' & ->)]; [reflexivity|].
    assert (K : map_chars f (keep_chars p (a' +++ String newline "")) = map_chars f (keep_chars p a') +++ String (f newline) "").
    { rewrite keep_app, map_chars_app. cbn [keep_chars]. unfold p at 2. now rewrite H2. }
    rewrite K. rewrite append_assoc. cbn [String.append]. unfold squeeze. now rewrite squeeze_end.
Qed.
Lemma append_length a b : String.length (a +++ b) = String.length a + String.length b.
Proof. induction a; cbn; congruence. Qed.
Lemma tr_app_iff o fl ops : tr_safe o fl ops <->
  forall a b, ends_line a -> tr_output o fl ops (a +++ b) = tr_output o fl ops a +++ tr_output o fl ops b.
Proof.
  split; [intros; now apply tr_app|]. intros H. unfold tr_safe. destruct (given fl ["--help"; "--version"]) eqn:G.
  - split; [right|auto]. specialize (H "" "" (or_introl eq_refl)). unfold tr_output in H. rewrite G in H.
    apply (f_equal String.length) in H. rewrite append_length in H. destruct (tr_help o); [reflexivity|]. cbn in H. lia.
  - split; [now left|]. unfold tr_output in H. rewrite G in H.
    destruct (tr_deletes o fl ops newline) eqn:D.
    + left. intros x X. destruct (tr_squeezes o fl ops (tr_image o fl ops x)) eqn:S; [|reflexivity]. exfalso.
      specialize (H (String x (String newline "")) (String x "")). cbn [String.append keep_chars] in H. rewrite X, D in H. cbn in H.
      unfold squeeze in H. cbn in H. rewrite S in H. cbn in H. rewrite Ascii.eqb_refl in H.
      discriminate H. right. exists (String x ""). reflexivity.
    + right; left. split; [reflexivity|]. destruct (tr_squeezes o fl ops (tr_image o fl ops newline)) eqn:S; [|reflexivity]. exfalso.
      specialize (H (String newline "") (String newline "")). cbn [String.append keep_chars] in H. rewrite D in H. unfold squeeze in H.
      cbn [negb map_chars squeeze_from String.append andb] in H. rewrite S in H. cbn [andb] in H. rewrite Ascii.eqb_refl in H. discriminate H.
      right. exists "". reflexivity.
Qed.
Lemma app_distributes (f : string -> string) : (forall a b, ends_line a -> f (a +++ b) = f a +++ f b) ->
  forall pieces, pieces <> [] -> cut_at_lines (joined pieces) pieces -> f (joined pieces) = joined (map f pieces).
Proof.
  intros H pieces NE (_ & F). induction pieces as [|x l IH]; [now destruct NE|]. destruct l as [|y l].
  - cbn. now rewrite !append_nil.
  - change (removelast (x :: y :: l)) with (x :: removelast (y :: l)) in F. inversion F; subst.
    change (joined (x :: y :: l)) with (x +++ joined (y :: l)). rewrite H by assumption. rewrite IH by (discriminate || assumption). reflexivity.
Qed.
Lemma tr_parallel_iff text inv p c v B o dir :
  parse shipped_dir text = Ok inv -> cmd_name inv = "tr" -> In p (stateless SpecPara.concat) ->
  invocation_of inv c -> reads_one c v -> tight c -> is_tr o B -> is_cat B ->
  parallel_ok B dir p c v (fun n => n <> 0) (fun _ => True) <->
  forall s, tr_safe o (map (wflag_of c s) (v_flags c)) (map (word_of c s) (v_ops c)).
Proof.
  intros PA C I IN R T TB CB.
  assert (CN : v_cmd c = "tr") by (destruct IN as (-> & _); exact C).
  assert (KN : forall s, known tr_names (map (wflag_of c s) (v_flags c))).
  { intros s. eapply parse_known; eauto; [rewrite C; left; vm_compute; reflexivity|vm_compute; reflexivity]. }
  split.
  - intros OK s. apply tr_app_iff. intros a b EA.
    pose proof (concat_complete B dir p c v _ R T I CB OK s 0 0 0 a b Logic.I EA) as X. cbv zeta in X.
    rewrite CN, !TB in X by apply KN. exact X.
  - intros S. apply concat_sound; auto. intros s pieces sd NE _ CU. cbn zeta. rewrite CN. split; [intros; now rewrite !TB by apply KN|].
    rewrite TB by apply KN.
    replace (map _ pieces) with (map (tr_output o (map (wflag_of c s) (v_flags c)) (map (word_of c s) (v_ops c))) pieces)
      by (apply map_ext; intros; now rewrite TB by apply KN).
    apply app_distributes; auto. intros a b EA. now apply tr_app.
Qed.

(** ** Wrong results *)
Lemma concat_wrong B dir p c i (Q : string -> Prop) s a b : reads_one c i -> tight c -> In p (stateless SpecPara.concat) -> is_cat B ->
  Q (a +++ b) -> ends_line a ->
  let f sd x := B sd (v_cmd c) (map (wflag_of c s) (v_flags c)) (map (word_of c s) (v_ops c)) [x] in
  (forall sd, f sd a = f 0 a /\ f sd b = f 0 b) -> (forall sd, f sd (a +++ b) <> f 0 a +++ f 0 b) ->
  parallel_wrong B dir p c i (fun n => n <> 0) Q.
Proof.
  intros R T I CB HQ EA f SEED NE.
  destruct (fresh_vars c i T) as (z & Z1 & Z2).
  set (s' := connect [i; z; z + 1]%Z [a +++ b; a; b] s).
  set (t := Node (z + 4)%Z 0 [Leaf z (z + 2)%Z 0; Leaf (z + 1)%Z (z + 3)%Z 0]).
  assert (Si : s' i = a +++ b) by (unfold s'; cbn; now rewrite Z.eqb_refl).
  assert (S1 : s' z = a).
  { unfold s'; cbn. destruct (Z.eqb_spec z i); [lia|]. now rewrite Z.eqb_refl. }
  assert (S2 : s' (z + 1)%Z = b).
  { unfold s'; cbn -[Z.add]. destruct (Z.eqb_spec (z + 1) i); [lia|]. destruct (Z.eqb_spec (z + 1) z); [lia|]. now rewrite Z.eqb_refl. }
  assert (W : map (wflag_of c s') (v_flags c) = map (wflag_of c s) (v_flags c) /\ map (word_of c s') (v_ops c) = map (word_of c s) (v_ops c)).
  { apply (words_only c i s' s R). intros v J N. apply connect_out. intros [E|[E|[E|[]]]]; [now apply N| |]; apply (Z2 v); auto; lia. }
  destruct W as (W1 & W2).
  assert (M : p_mapper p = seq_mapper /\ p_info_mapper_aggregator p = 0 /\ p_aggregator p = SpecPara.concat) by (destruct I as [<-|[<-|[]]]; auto).
  destruct M as (M1 & M2 & M3).
  assert (FR : fresh_plan c t).
  { split; [cbn; repeat constructor; cbn; lia|]. intros v J. apply Z2. cbn in J. lia. }
  assert (AR : arity (fun n => n <> 0) t) by (cbn; auto).
  exists s', t, (f 0 a +++ f 0 b). refine (conj FR (conj AR (conj _ (conj _ (conj _ _))))).
  - now rewrite Si.
  - cbn [parts t flat_map map app]. rewrite Si, S1, S2.
    assert (X : cut_at_lines (a +++ b) [a; b]) by (split; [cbn; now rewrite append_nil|apply (Forall_cons a EA), Forall_nil]).
    destruct I as [<-|[<-|[]]]; exact X.
  - replace (f 0 a +++ f 0 b) with (joined (map (fun v => f 0 (s' v)) (parts t))).
    + apply (concat_plan B dir p c i s' (f 0)); auto. intros sd v [<-|[<-|[]]]; rewrite W1, W2, ?S1, ?S2; apply SEED.
    + cbn [parts t flat_map map app joined fold_right]. now rewrite S1, S2, append_nil.
  - intros sd E. apply (NE sd). rewrite (run_original B sd c i s' R), W1, W2, Si in E. symmetry. exact E.
Qed.
Lemma wrong_not_ok B dir p c i P Q : parallel_wrong B dir p c i P Q -> ~ parallel_ok B dir p c i P Q.
Proof.
  intros (s & t & r & F & A & HQ & D & E & N) OK. apply (N 0). eapply evaluates_fun; [exact E|]. now apply OK.
Qed.
Lemma tr_wrong text inv p c v B o dir s :
  parse shipped_dir text = Ok inv -> cmd_name inv = "tr" -> In p (stateless SpecPara.concat) ->
  invocation_of inv c -> reads_one c v -> tight c -> is_tr o B -> is_cat B ->
  ~ tr_safe o (map (wflag_of c s) (v_flags c)) (map (word_of c s) (v_ops c)) ->
  parallel_wrong B dir p c v (fun n => n <> 0) (fun _ => True).
Proof.
  intros PA C I IN R T TB CB NS.
  assert (CN : v_cmd c = "tr") by (destruct IN as (-> & _); exact C).
  assert (KN : known tr_names (map (wflag_of c s) (v_flags c))).
  { eapply parse_known; eauto; [rewrite C; left; vm_compute; reflexivity|vm_compute; reflexivity]. }
  set (fl := map (wflag_of c s) (v_flags c)) in *. set (ops := map (word_of c s) (v_ops c)) in *.
  enough (X : exists a b, ends_line a /\ tr_output o fl ops (a +++ b) <> tr_output o fl ops a +++ tr_output o fl ops b).
  { destruct X as (a & b & EA & NE). apply (concat_wrong B dir p c v (fun _ => True) s a b); auto; fold fl ops; rewrite CN.
    - intros sd. now rewrite !TB.
    - intros sd. now rewrite !TB. }
  unfold tr_safe in NS. destruct (given fl ["--help"; "--version"]) eqn:G.
  - exists "", "". split; [now left|]. unfold tr_output. rewrite G. intros E. apply NS. split; [right|auto].
    apply (f_equal String.length) in E. rewrite append_length in E. destruct (tr_help o); [reflexivity|]. cbn in E. lia.
  - destruct (tr_deletes o fl ops newline) eqn:D.
    + assert (X : exists x, tr_deletes o fl ops x = false /\ tr_squeezes o fl ops (tr_image o fl ops x) = true).
      { destruct (existsb (fun n => let x := ascii_of_nat n in negb (tr_deletes o fl ops x) && tr_squeezes o fl ops (tr_image o fl ops x)) (seq 0 256)) eqn:X.
        - apply existsb_exists in X as (n & _ & X). cbv zeta in X. apply andb_true_iff in X as (X1 & X2). apply negb_true_iff in X1. eauto.
        - exfalso. apply NS. split; [now left|]. left. intros x Dx. destruct (tr_squeezes o fl ops (tr_image o fl ops x)) eqn:Sx; [|reflexivity].
          rewrite <- X. symmetry. apply existsb_exists. exists (nat_of_ascii x). split.
          + apply in_seq. pose proof (nat_ascii_bounded x). lia.
          + cbv zeta. rewrite ascii_nat_embedding, Dx, Sx. reflexivity. }
      destruct X as (x & X & S). exists (String x (String newline "")), (String x "").
      split; [right; now exists (String x "")|]. unfold tr_output. rewrite G. cbn [String.append keep_chars]. rewrite X, D.
      unfold squeeze. cbn [negb map_chars squeeze_from String.append andb]. rewrite S. cbn [andb]. rewrite Ascii.eqb_refl. discriminate.
    + exists (String newline ""), (String newline ""). split; [right; now exists ""|]. unfold tr_output. rewrite G.
      destruct (tr_squeezes o fl ops (tr_image o fl ops newline)) eqn:S; [|exfalso; apply NS; auto 6].
      cbn [String.append keep_chars]. rewrite D.
      unfold squeeze. cbn [negb map_chars squeeze_from String.append andb]. rewrite S. cbn [andb]. rewrite Ascii.eqb_refl. discriminate.
Qed.
