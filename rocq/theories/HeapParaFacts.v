(** * Facts about the helpers for parallelizability information on objects *)
From Coq Require Import Lia ZArith.
Require Import Verif.PyBase Verif.Transformers Verif.ParaTypes Verif.ParaGen Verif.GenHelpers Verif.Heap Verif.HeapEq Verif.HeapInfer Verif.HeapPara Verif.SpecHeap Verif.SpecHeapEq Verif.SpecInfer Verif.SpecHeapPara
  Verif.HeapFacts Verif.HeapSep Verif.HeapEqFacts Verif.HeapEqProps Verif.P_Heap Verif.ApplyFacts Verif.P_Apply Verif.InferFacts.

Definition plain (v : hval) : Prop := forall l, v <> HRef l.
(** Objects to be added at [n] whose references lead to earlier ones among them *)
Definition block (n : nat) (os : list obj) : Prop :=
  forall k o, nth_error os k = Some o ->
    exists c attrs, o = OInst c attrs /\ ~ In c by_identity /\ NoDup (map fst attrs) /\
      Forall (fun v => plain v \/ exists j, j < k /\ v = HRef (n + j)) (map snd attrs).
Lemma nth_block {A} (h os : list A) k : nth_error (h ++ os) (length h + k) = nth_error os k.
Proof. rewrite nth_error_app2 by lia. f_equal. lia. Qed.
Section Block.
  Variables (h h' : heap) (os : list obj).
  Hypothesis B : block (length h) os.
  Hypothesis N : forall k, k < length os -> nth_error h' (length h + k) = nth_error os k.
  Hypothesis L : length h' = length h + length os.
  Lemma block_at l o : length h <= l -> nth_error h' l = Some o -> exists k, l = length h + k /\ k < length os /\ nth_error os k = Some o.
  Proof.
    intros G E. pose proof (nth_bound _ _ _ E) as X. exists (l - length h). split; [lia|]. split; [lia|].
    rewrite <- N by lia. now replace (length h + (l - length h)) with l by lia.
  Qed.
  Lemma block_reaches v l : reaches h' v l -> (forall k, v = HRef k -> length h <= k) -> length h <= l.
  Proof.
    induction 1 as [l X|l o v l' E I R IH]; intros G; [now apply G|]. apply IH. intros k ->.
    destruct (block_at l o (G l eq_refl) E) as (j & -> & Lj & Ej). destruct (B _ _ Ej) as (c & attrs & -> & _ & _ & F).
    rewrite Forall_forall in F. destruct (F _ I) as [P|(i & _ & P)]; [now destruct (P k)|]. injection P as ->. lia.
  Qed.
  Lemma block_grounded k : k < length os -> grounded h' (HRef (length h + k)).
  Proof.
    induction k as [k IH] using (well_founded_induction Wf_nat.lt_wf). intros Lk.
    destruct (nth_error os k) as [o|] eqn:E; [|apply nth_error_None in E; lia].
    apply (gr_object h' _ o); [now rewrite N|]. intros v I. destruct (B _ _ E) as (c & attrs & -> & _ & _ & F).
    rewrite Forall_forall in F. destruct (F _ I) as [P|(i & Li & ->)]; [now apply gr_value|]. apply IH; lia.
  Qed.
  Lemma block_eq k : k < length os -> ~ reaches_without_eq h' (HRef (length h + k)).
  Proof.
    intros Lk (l & c & attrs & R & E & I). assert (G : length h <= l) by (apply (block_reaches _ _ R); intros j X; injection X as <-; lia).
    destruct (block_at _ _ G E) as (j & _ & _ & Ej). destruct (B _ _ Ej) as (c' & a' & X & Y & _). injection X as <- <-. contradiction.
  Qed.
End Block.
Lemma block_closed h os : closed h -> block (length h) os -> closed (h ++ os).
Proof.
  intros C B o I. apply in_app_or in I as [I|I].
  - eapply Forall_impl; [|exact (C o I)]. intros v. apply valid_mono. rewrite app_length. lia.
  - apply In_nth_error in I as (k & E). destruct (B _ _ E) as (c & attrs & -> & _ & _ & F). eapply Forall_impl; [|exact F].
    intros v [P|(j & Lj & ->)]; [destruct v; cbn; auto; now destruct (P l)|]. cbn. rewrite app_length.
    assert (k < length os) by (apply nth_error_Some; congruence). lia.
Qed.
Lemma block_proper h os : proper h -> block (length h) os -> proper (h ++ os).
Proof.
  intros P B o I. apply in_app_or in I as [I|I]; [exact (P o I)|].
  apply In_nth_error in I as (k & E). destruct (B _ _ E) as (c & attrs & -> & _ & X & _). exact X.
Qed.

Lemma same_as_seq_agree h h' v m : agree h h' v -> same_as_seq h v m -> same_as_seq h' v m.
Proof.
  intros A (l & t & b & -> & E & T & X). exists l, t, b. split; [reflexivity|]. split; [eapply agree_here; eauto|]. split; [|exact X].
  eapply agree_here; [|exact T]. eapply agree_slot; [exact A|exact E|]. cbn. tauto.
Qed.
Lemma aggregator_spec_agree h h' v a : agree h h' v -> aggregator_spec_is h v a -> aggregator_spec_is h' v a.
Proof.
  intros A (l & b & -> & X & Y). exists l, b. split; [reflexivity|]. split; [exact X|]. destruct a; auto; eapply agree_here; eauto.
Qed.
Lemma parallelizer_agree h h' v p : agree h h' v -> parallelizer_is h v p -> parallelizer_is h' v p.
Proof.
  intros A (l & s & m & a & -> & E & S & M & G & X). exists l, s, m, a. split; [reflexivity|]. split; [eapply agree_here; eauto|].
  assert (As : agree h h' s) by (eapply agree_slot; [exact A|exact E|cbn; tauto]).
  assert (Am : agree h h' m) by (eapply agree_slot; [exact A|exact E|cbn; tauto]).
  assert (Aa : agree h h' a) by (eapply agree_slot; [exact A|exact E|cbn; tauto]).
  split; [|split; [|split; [|exact X]]].
  - destruct S as (k & -> & S). exists k. split; [reflexivity|]. eapply agree_here; eauto.
  - eapply same_as_seq_agree; eauto.
  - eapply aggregator_spec_agree; eauto.
Qed.
Lemma parallelizers_agree h h' qs ps : (forall q, In q qs -> agree h h' q) -> Forall2 (parallelizer_is h) qs ps -> Forall2 (parallelizer_is h') qs ps.
Proof.
  intros Keep F. induction F as [|r p l l' X F IH]; constructor.
  - eapply parallelizer_agree; [apply Keep; now left|exact X].
  - apply IH. intros s I. apply Keep. now right.
Qed.
Lemma parallelizer_splits h v p : parallelizer_is h v p -> splits_by h (p_splitter p) v.
Proof. intros (l & s & m & a & -> & E & S & _). exists l. eexists. exists s. split; [reflexivity|]. split; [exact E|]. split; [reflexivity|exact S]. Qed.
Lemma own_agree h h' la v : closed h -> length h <= length h' -> agree h h' v -> own_value h la v -> own_value h' la v.
Proof.
  intros C L A (V & G & W & N). split; [eapply valid_mono; eauto|]. split; [eapply grounded_agree; eauto|]. split.
  - intros X. apply W. eapply without_eq_agree; eauto.
  - intros X. apply N. eapply agree_reaches; eauto.
Qed.

Definition info_obj (la : loc) (i : para_info) : obj :=
  OInst "ParallelizabilityInfo" [("parallelizer_list", HRef la); ("round_robin_compatible_with_cat", py_bool (round_robin_compatible_with_cat i)); ("is_commutative", py_bool (is_commutative i))].
(** What is true between two calls of helpers *)
Record gstate (h0 h : heap) (i : para_info) (qs : list hval) : Prop := mkG
  { g_closed : closed h; g_proper : proper h; g_length : length h0 + 2 <= length h;
    g_frame : unchanged h0 h;
    g_list : nth_error h (length h0) = Some (OList qs);
    g_info : nth_error h (S (length h0)) = Some (info_obj (length h0) i);
    g_is : Forall2 (parallelizer_is h) qs (parallelizer_list i);
    g_new : forall q, In q qs -> own_value h (length h0) q /\ forall l, reaches h q l -> length h0 + 2 <= l;
    g_disjoint : ForallOrdPairs (disjoint h) qs }.
Lemma g_keep h0 h i qs h' : gstate h0 h i qs -> length h <= length h' ->
  (forall l, length h0 + 2 <= l -> l < length h -> nth_error h' l = nth_error h l) ->
  forall q, In q qs -> agree h h' q.
Proof. intros G L F q I l R. apply F; [now apply (g_new _ _ _ _ G q I)|eapply reaches_bound; eauto]. Qed.
(** The objects kept, the new parallelizer at the end of a block *)
Lemma g_snoc h0 h i qs os k p : gstate h0 h i qs -> block (length h) os -> k < length os ->
  parallelizer_is (update (h ++ os) (length h0) (OList (qs ++ [HRef (length h + k)]))) (HRef (length h + k)) p ->
  gstate h0 (update (h ++ os) (length h0) (OList (qs ++ [HRef (length h + k)]))) (append_to_parallelizer_list p i) (qs ++ [HRef (length h + k)]).
Proof.
  intros G B Lk P. set (q := HRef (length h + k)) in *. set (h' := update (h ++ os) (length h0) (OList (qs ++ [q]))) in *.
  pose proof (g_length _ _ _ _ G) as L0. pose proof (g_closed _ _ _ _ G) as C.
  assert (Lh : length h' = length h + length os) by (unfold h'; now rewrite update_length, app_length).
  assert (Old : forall l, l < length h -> l <> length h0 -> nth_error h' l = nth_error h l).
  { intros l Ll X. unfold h'. rewrite update_other by exact X. now apply nth_error_app1. }
  assert (New : forall j, j < length os -> nth_error h' (length h + j) = nth_error os j).
  { intros j Lj. unfold h'. rewrite update_other by lia. apply nth_block. }
  assert (Keep : forall r, In r qs -> agree h h' r).
  { apply (g_keep _ _ _ _ _ G); [lia|]. intros l X Y. apply Old; lia. }
  assert (Rq : forall l, reaches h' q l -> length h <= l).
  { intros l R. apply (block_reaches h h' os B New Lh _ _ R). intros j X. injection X as <-. lia. }
  assert (Rold : forall r l, In r qs -> reaches h' r l -> reaches h r l).
  { intros r l I R. eapply agree_reaches; [exact C|exact R|apply (g_new _ _ _ _ G r I)|now apply Keep]. }
  constructor.
  - apply closed_update; [now apply block_closed|]. cbn [slots]. apply Forall_app. split.
    + apply Forall_forall. intros r I. eapply valid_mono; [|apply (g_new _ _ _ _ G r I)]. rewrite app_length. lia.
    + constructor; [|constructor]. cbn. rewrite app_length. lia.
  - apply proper_forall, update_forall; [apply proper_forall, block_proper; [apply G|exact B]|exact I].
  - lia.
  - intros l Ll. rewrite Old by lia. now apply (g_frame _ _ _ _ G).
  - unfold h'. apply update_same. rewrite app_length. lia.
  - rewrite Old by lia. apply (g_info _ _ _ _ G).
  - cbn [append_to_parallelizer_list parallelizer_list]. apply Forall2_app; [|now repeat constructor].
    eapply parallelizers_agree; [exact Keep|apply G].
  - intros r I. apply in_app_or in I as [I|[<-|[]]].
    + destruct (g_new _ _ _ _ G r I) as (O & F). split; [eapply own_agree; [exact C| |now apply Keep|exact O]; lia|].
      intros l R. apply F. now apply Rold.
    + split; [|intros l R; apply Rq in R; lia]. split; [cbn; lia|]. split; [now apply (block_grounded h h' os)|]. split; [now apply (block_eq h h' os)|].
      intros R. apply Rq in R. lia.
  - apply pairs_snoc.
    + eapply pairs_impl; [apply (g_disjoint _ _ _ _ G)|]. intros r s Ir Is D l R S. exact (D l (Rold _ _ Ir R) (Rold _ _ Is S)).
    + intros r I l R S. apply Rq in S. apply (Rold _ _ I), reaches_bound in R. lia.
Qed.

Lemma g_commutative h0 h i qs : gstate h0 h i qs ->
  gstate h0 (update h (S (length h0)) (info_obj (length h0) (set_commutative i))) (set_commutative i) qs.
Proof.
  intros G. set (h' := update _ _ _). pose proof (g_length _ _ _ _ G) as L0. pose proof (g_closed _ _ _ _ G) as C.
  assert (Lh : length h' = length h) by apply update_length.
  assert (Old : forall l, l <> S (length h0) -> nth_error h' l = nth_error h l) by (intros l X; now apply update_other).
  assert (Keep : forall r, In r qs -> agree h h' r).
  { apply (g_keep _ _ _ _ _ G); [lia|]. intros l X Y. apply Old. lia. }
  assert (Rold : forall r l, In r qs -> reaches h' r l -> reaches h r l).
  { intros r l I R. eapply agree_reaches; [exact C|exact R|apply (g_new _ _ _ _ G r I)|now apply Keep]. }
  constructor.
  - apply closed_update; [exact C|]. repeat constructor. cbn. lia.
  - apply proper_forall, update_forall; [apply proper_forall, G|]. cbn. repeat constructor; cbn; intuition discriminate.
  - lia.
  - intros l Ll. rewrite Old by lia. now apply (g_frame _ _ _ _ G).
  - rewrite Old by lia. apply G.
  - apply update_same. lia.
  - eapply parallelizers_agree; [exact Keep|apply G].
  - intros r I. destruct (g_new _ _ _ _ G r I) as (O & F). split; [eapply own_agree; [exact C| |now apply Keep|exact O]; lia|].
    intros l R. apply F. now apply Rold.
  - eapply pairs_impl; [apply (g_disjoint _ _ _ _ G)|]. intros r s Ir Is D l R S. exact (D l (Rold _ _ Ir R) (Rold _ _ Is S)).
Qed.

(** The objects of a parallelizer at [n]: with the default aggregator, and with another one *)
Definition seq_obj : obj := OInst "TransformerFlagOptionListSeq" [].
Definition mapper_obj (t : loc) : obj :=
  OInst "MapperSpec" [("kind", HStr "same_as_seq"); ("spec_mapper_cmd_name", HNone); ("flag_option_list_transformer", HRef t); ("is_implemented", py_bool true)].
Definition conc_obj : obj := OInst "AggregatorSpecNonFunc" [("kind", HKind CONCATENATE); ("is_implemented", py_bool true)].
Definition splitter_obj (s : splitter) : obj := OInst "Splitter" [("kind", HSplit s)].
Definition par_obj (s m a : loc) : obj :=
  OInst "Parallelizer" [("splitter", HRef s); ("core_mapper_spec", HRef m); ("core_aggregator_spec", HRef a); ("info_splitter_mapper", HStr "no_add_input"); ("info_mapper_aggregator", HInt 0)].
Definition agg_obj (a : agg_spec) : obj :=
  match a with
  | AggString k s b => OInst "AggregatorSpecFuncStringRepresentation" [("kind", HKind k); ("is_implemented", py_bool b); ("cmd_inv_as_str", HStr s)]
  | _ => OInst "AggregatorSpecNonFunc" [("kind", HKind (agg_kind_of a)); ("is_implemented", py_bool (agg_is_implemented a))]
  end.
Definition default_block (n : nat) (s : splitter) : list obj :=
  [seq_obj; mapper_obj (n + 0); conc_obj; splitter_obj s; par_obj (n + 3) (n + 1) (n + 2)].
Definition other_block (n : nat) (s : splitter) (a : agg_spec) : list obj :=
  [agg_obj a; seq_obj; mapper_obj (n + 1); conc_obj; splitter_obj s; par_obj (n + 4) (n + 2) (n + 0)].
Ltac names := repeat constructor; cbn; intuition discriminate.
Ltac slot := first [left; intros ? ?; discriminate | right; eexists; split; [|reflexivity]; lia].
Ltac one_obj E := injection E as <-; eexists; eexists; split; [reflexivity|]; split; [cbn; intuition discriminate|]; split; [names|];
  cbn [map snd]; repeat (apply Forall_cons; [slot|]); apply Forall_nil.
Lemma default_is_block n s : block n (default_block n s).
Proof. intros k o E. destruct k as [|[|[|[|[|k]]]]]; cbn in E; try (destruct k; discriminate E); one_obj E. Qed.
Lemma other_is_block n s a : block n (other_block n s a).
Proof. intros k o E. destruct k as [|[|[|[|[|[|k]]]]]]; cbn in E; try (destruct k; discriminate E); [destruct a; one_obj E|one_obj E..]. Qed.

Lemma run_alloc o h : alloc o h = (h ++ [o], Ok (HRef (length h))). Proof. reflexivity. Qed.
Lemma app_snoc (h os : list obj) o : (h ++ os) ++ [o] = h ++ (os ++ [o]). Proof. symmetry. apply app_assoc. Qed.
Lemma app_snoc_r (h : list obj) o o' : h ++ [o; o'] = (h ++ [o]) ++ [o']. Proof. now rewrite <- app_assoc. Qed.
Lemma get_attr_block h os k c attrs n v : nth_error os k = Some (OInst c attrs) -> assoc_s attrs n = Some v ->
  get_attr (HRef (length h + k)) n (h ++ os) = (h ++ os, Ok v).
Proof. intros E A. eapply get_attr_ok; [rewrite nth_block; exact E|exact A]. Qed.
Lemma new_parallelizer_run h os j m k s a c attrs : nth_error os j = Some (splitter_obj s) -> nth_error os k = Some (OInst c attrs) ->
  assoc_s attrs "kind" = Some (HKind (agg_kind_of a)) -> negb (is_splitter_round_robin s) || round_robin_aggregator a = true ->
  new_parallelizer_h (HRef (length h + j)) (HRef m) (HRef (length h + k)) (h ++ os) =
    (h ++ (os ++ [par_obj (length h + j) m (length h + k)]), Ok (HRef (length h + length os))).
Proof.
  intros Es Ea Ak R. unfold new_parallelizer_h. erewrite bind_ok by (eapply get_attr_block; [exact Es|reflexivity]).
  assert (Z : forall b : unit, alloc (par_obj (length h + j) m (length h + k)) (h ++ os) = (h ++ (os ++ [par_obj (length h + j) m (length h + k)]), Ok (HRef (length h + length os)))).
  { intros _. rewrite run_alloc, app_snoc, app_length. reflexivity. }
  destruct s; try exact (Z tt). cbn in R. unfold round_robin_aggregator in R. unfold hbind at 1.
  erewrite bind_ok by (eapply get_attr_block; [exact Ea|exact Ak]). destruct (agg_kind_of a); try discriminate R; exact (Z tt).
Qed.
Lemma default_run h s : make_parallelizer_h s HNone h = (h ++ default_block (length h) s, Ok (HRef (length h + 4))).
Proof.
  unfold make_parallelizer_h.
  assert (M : make_mapper_spec_seq_h h = (h ++ [seq_obj; mapper_obj (length h + 0)], Ok (HRef (length h + 1)))).
  { unfold make_mapper_spec_seq_h. erewrite bind_ok by apply run_alloc. rewrite run_alloc, app_snoc, app_length, Nat.add_0_r. reflexivity. }
  rewrite (bind_ok _ _ _ _ _ M).
  assert (A : make_aggregator_spec_concatenate_h (h ++ [seq_obj; mapper_obj (length h + 0)]) = (h ++ [seq_obj; mapper_obj (length h + 0); conc_obj], Ok (HRef (length h + 2)))).
  { unfold make_aggregator_spec_concatenate_h, new_aggregator_spec_non_func_h. rewrite run_alloc, app_snoc, app_length. reflexivity. }
  rewrite (bind_ok _ _ _ _ _ A).
  assert (S : new_splitter_h s (h ++ [seq_obj; mapper_obj (length h + 0); conc_obj]) = (h ++ [seq_obj; mapper_obj (length h + 0); conc_obj; splitter_obj s], Ok (HRef (length h + 3)))).
  { unfold new_splitter_h. rewrite run_alloc, app_snoc, app_length. reflexivity. }
  rewrite (bind_ok _ _ _ _ _ S).
  exact (new_parallelizer_run h [seq_obj; mapper_obj (length h + 0); conc_obj; splitter_obj s] 3 (length h + 1) 2 s make_aggregator_spec_concatenate _ _
    eq_refl eq_refl eq_refl ltac:(destruct s; reflexivity)).
Qed.
Lemma agg_obj_form a : exists c attrs, agg_obj a = OInst c attrs /\ assoc_s attrs "kind" = Some (HKind (agg_kind_of a)).
Proof. destruct a; eexists; eexists; split; reflexivity. Qed.
Lemma other_run h s a : negb (is_splitter_round_robin s) || round_robin_aggregator a = true ->
  make_parallelizer_h s (HRef (length h)) (h ++ [agg_obj a]) = (h ++ other_block (length h) s a, Ok (HRef (length h + 5))).
Proof.
  intros R. unfold make_parallelizer_h.
  assert (M : make_mapper_spec_seq_h (h ++ [agg_obj a]) = (h ++ [agg_obj a; seq_obj; mapper_obj (length h + 1)], Ok (HRef (length h + 2)))).
  { unfold make_mapper_spec_seq_h. erewrite bind_ok by apply run_alloc. rewrite run_alloc, !app_length, <- !app_assoc. cbn [length app]. do 3 f_equal. lia. }
  rewrite (bind_ok _ _ _ _ _ M).
  assert (A : make_aggregator_spec_concatenate_h (h ++ [agg_obj a; seq_obj; mapper_obj (length h + 1)]) = (h ++ [agg_obj a; seq_obj; mapper_obj (length h + 1); conc_obj], Ok (HRef (length h + 3)))).
  { unfold make_aggregator_spec_concatenate_h, new_aggregator_spec_non_func_h. rewrite run_alloc, app_snoc, app_length. reflexivity. }
  rewrite (bind_ok _ _ _ _ _ A).
  assert (S : new_splitter_h s (h ++ [agg_obj a; seq_obj; mapper_obj (length h + 1); conc_obj]) = (h ++ [agg_obj a; seq_obj; mapper_obj (length h + 1); conc_obj; splitter_obj s], Ok (HRef (length h + 4)))).
  { unfold new_splitter_h. rewrite run_alloc, app_snoc, app_length. reflexivity. }
  rewrite (bind_ok _ _ _ _ _ S).
  replace (HRef (length h)) with (HRef (length h + 0)) by (f_equal; lia).
  destruct (agg_obj_form a) as (c & attrs & E & K).
  exact (new_parallelizer_run h [agg_obj a; seq_obj; mapper_obj (length h + 1); conc_obj; splitter_obj s] 4 (length h + 2) 0 s a c attrs
    eq_refl (f_equal Some E) K R).
Qed.

Lemma nth_new (h os : list obj) la o k : la < length h -> nth_error (update (h ++ os) la o) (length h + k) = nth_error os k.
Proof. intros L. rewrite update_other by lia. apply nth_block. Qed.
Lemma default_is h la o s : la < length h ->
  parallelizer_is (update (h ++ default_block (length h) s) la o) (HRef (length h + 4)) (mkPar s (mkMapperSpec SAME_AS_SEQ None TSeq true) make_aggregator_spec_concatenate NO_ADD_INPUT 0).
Proof.
  intros L. exists (length h + 4), (HRef (length h + 3)), (HRef (length h + 1)), (HRef (length h + 2)). split; [reflexivity|].
  split; [now rewrite nth_new|]. split; [exists (length h + 3); split; [reflexivity|now rewrite nth_new]|]. split.
  - exists (length h + 1), (length h + 0), (py_bool true). repeat split; now rewrite nth_new.
  - split; [|now split]. exists (length h + 2), (py_bool true). repeat split. cbn. now rewrite nth_new.
Qed.
Definition in_heap (a : agg_spec) : Prop := match a with AggTransformer _ _ _ => False | _ => True end.
Lemma other_is h la o s a : la < length h -> in_heap a ->
  parallelizer_is (update (h ++ other_block (length h) s a) la o) (HRef (length h + 5)) (mkPar s (mkMapperSpec SAME_AS_SEQ None TSeq true) a NO_ADD_INPUT 0).
Proof.
  intros L H. exists (length h + 5), (HRef (length h + 4)), (HRef (length h + 2)), (HRef (length h + 0)). split; [reflexivity|].
  split; [now rewrite nth_new|]. split; [exists (length h + 4); split; [reflexivity|now rewrite nth_new]|]. split.
  - exists (length h + 2), (length h + 1), (py_bool true). repeat split; now rewrite nth_new.
  - split; [|now split]. exists (length h + 0), (py_bool (agg_is_implemented a)). split; [reflexivity|]. split; [reflexivity|].
    destruct a; [|contradiction|]; now rewrite nth_new.
Qed.

Lemma append_run h0 h i qs q : gstate h0 h i qs -> forall os,
  append_to_parallelizer_list_h (HRef (S (length h0))) q (h ++ os) = (update (h ++ os) (length h0) (OList (qs ++ [q])), Ok tt).
Proof.
  intros G os. pose proof (g_length _ _ _ _ G). unfold append_to_parallelizer_list_h.
  erewrite bind_ok by (eapply get_attr_ok; [rewrite nth_error_app1 by lia; apply G|reflexivity]).
  unfold list_append, hbind, get_obj. rewrite nth_error_app1 by lia. now rewrite (g_list _ _ _ _ G).
Qed.
Definition steps (h0 h : heap) (i : para_info) (qs : list hval) (k : helper) : Prop :=
  exists h' i' qs', call_helper_h k (HRef (S (length h0))) h = (h', Ok tt) /\ call_helper k i = Ok i' /\ gstate h0 h' i' qs'.
Lemma append_default s i : append_new s None i = Ok (append_to_parallelizer_list (mkPar s (mkMapperSpec SAME_AS_SEQ None TSeq true) make_aggregator_spec_concatenate NO_ADD_INPUT 0) i).
Proof. destruct s; reflexivity. Qed.
Lemma default_step h0 h i qs s : gstate h0 h i qs ->
  exists h' i' qs', append_new_h s (hret HNone) (HRef (S (length h0))) h = (h', Ok tt) /\ append_new s None i = Ok i' /\ gstate h0 h' i' qs'.
Proof.
  intros G. pose proof (g_length _ _ _ _ G). eexists. eexists. eexists. split.
  - unfold append_new_h, hret, hbind. rewrite default_run. apply (append_run _ _ _ _ _ G).
  - split; [apply append_default|].
    (apply (g_snoc _ _ _ _ _ 4); [exact G|apply default_is_block|cbn; lia|apply default_is; lia]).
Qed.
Lemma other_step h0 h i qs s mk a : gstate h0 h i qs -> in_heap a -> negb (is_splitter_round_robin s) || round_robin_aggregator a = true ->
  (forall h, mk h = (h ++ [agg_obj a], Ok (HRef (length h)))) ->
  exists h' i' qs', append_new_h s mk (HRef (S (length h0))) h = (h', Ok tt) /\ append_new s (Some a) i = Ok i' /\ gstate h0 h' i' qs'.
Proof.
  intros G A R M. pose proof (g_length _ _ _ _ G). eexists. eexists. eexists. split.
  - unfold append_new_h. rewrite (bind_ok _ _ _ _ _ (M h)). rewrite (bind_ok _ _ _ _ _ (other_run h s a R)). apply (append_run _ _ _ _ _ G).
  - split; [unfold append_new, make_parallelizer, new_parallelizer; cbn; rewrite R; reflexivity|].
    apply (g_snoc _ _ _ _ _ 5); [exact G|apply other_is_block|cbn; lia|apply other_is; [lia|exact A]].
Qed.
Lemma helper_step h0 h i qs k : gstate h0 h i qs -> library_call k -> steps h0 h i qs k.
Proof.
  intros G L. unfold steps. destruct k; cbn [call_helper_h call_helper].
  - now destruct (L p).
  - exact (default_step h0 h i qs INDIV_FILES G).
  - exact (other_step h0 h i qs INDIV_FILES make_aggregator_spec_adj_lines_merge_h make_aggregator_spec_adj_lines_merge G I eq_refl (fun _ => eq_refl)).
  - exact (default_step h0 h i qs CONSEC_CHUNKS G).
  - exact (other_step h0 h i qs CONSEC_CHUNKS make_aggregator_spec_adj_lines_merge_h make_aggregator_spec_adj_lines_merge G I eq_refl (fun _ => eq_refl)).
  - exact (default_step h0 h i qs ROUND_ROBIN_PLAIN G).
  - exact (other_step h0 h i qs ROUND_ROBIN_PLAIN make_aggregator_spec_adj_lines_merge_h make_aggregator_spec_adj_lines_merge G I eq_refl (fun _ => eq_refl)).
  - exact (other_step h0 h i qs ROUND_ROBIN_PLAIN make_aggregator_spec_adj_lines_seq_h make_aggregator_spec_adj_lines_seq G I eq_refl (fun _ => eq_refl)).
  - exact (other_step h0 h i qs CONSEC_CHUNKS make_aggregator_spec_adj_lines_seq_h make_aggregator_spec_adj_lines_seq G I eq_refl (fun _ => eq_refl)).
  - exact (other_step h0 h i qs ROUND_ROBIN_PLAIN (make_aggregator_spec_adj_lines_func_from_string_representation_h f impl) (make_aggregator_spec_from_string ADJ_LINES_FUNC f impl) G I eq_refl (fun _ => eq_refl)).
  - exact (other_step h0 h i qs CONSEC_CHUNKS (make_aggregator_spec_adj_lines_func_from_string_representation_h f impl) (make_aggregator_spec_from_string ADJ_LINES_FUNC f impl) G I eq_refl (fun _ => eq_refl)).
  - exists (update h (S (length h0)) (info_obj (length h0) (set_commutative i))), (set_commutative i), qs.
    split; [|split; [reflexivity|now apply g_commutative]].
    unfold set_attr, hbind, get_obj. now rewrite (g_info _ _ _ _ G).
Qed.
Lemma helpers_steps h0 ks : Forall library_call ks -> forall h i qs, gstate h0 h i qs ->
  exists h' i' qs', call_helpers_h ks (HRef (S (length h0))) h = (h', Ok tt) /\ call_helpers ks i = Ok i' /\ gstate h0 h' i' qs'.
Proof.
  induction 1 as [|k ks K F IH]; intros h i qs G; [now exists h, i, qs|].
  destruct (helper_step h0 h i qs k G K) as (h1 & i1 & qs1 & R & V & G1). destruct (IH _ _ _ G1) as (h2 & i2 & qs2 & R2 & V2 & G2).
  exists h2, i2, qs2. cbn [call_helpers_h call_helpers]. unfold hbind. rewrite R, V. auto.
Qed.
Lemma g_start h0 : closed h0 -> proper h0 ->
  new_para_info_h h0 = (h0 ++ [OList []; info_obj (length h0) new_para_info], Ok (HRef (S (length h0)))) /\
  gstate h0 (h0 ++ [OList []; info_obj (length h0) new_para_info]) new_para_info [].
Proof.
  intros C P. split.
  - unfold new_para_info_h. erewrite bind_ok by apply run_alloc. rewrite run_alloc, app_snoc, app_length, Nat.add_1_r. reflexivity.
  - constructor.
    + rewrite (app_snoc_r h0). apply closed_snoc; [apply closed_snoc; [exact C|constructor]|]. repeat constructor. cbn. rewrite app_length. cbn. lia.
    + intros o I. apply in_app_or in I as [I|[<-|[<-|[]]]]; [exact (P o I)|exact Logic.I|names].
    + rewrite app_length. cbn. lia.
    + intros l L. now apply nth_error_app1.
    + rewrite nth_error_app2, Nat.sub_diag by lia. reflexivity.
    + rewrite nth_error_app2 by lia. now replace (S (length h0) - length h0) with 1 by lia.
    + constructor.
    + intros q [].
    + constructor.
Qed.
Lemma generate_spec h0 ks : closed h0 -> proper h0 -> Forall library_call ks ->
  exists h' i qs, generate_para_h ks h0 = (h', Ok (HRef (S (length h0)))) /\ call_helpers ks new_para_info = Ok i /\ gstate h0 h' i qs.
Proof.
  intros C P F. destruct (g_start h0 C P) as (R & G). destruct (helpers_steps h0 ks F _ _ _ G) as (h' & i & qs & R' & V & G').
  exists h', i, qs. split; [|auto]. unfold generate_para_h, hbind. rewrite R, R'. reflexivity.
Qed.
