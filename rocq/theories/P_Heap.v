(** * Theorems about sharing between an invocation and its mappers and aggregators (C48) *)
From Coq Require Import Lia.
Require Import Verif.PyBase Verif.JsonData Verif.Parser Verif.Access Verif.IOInfo Verif.IOVars
  Verif.Transformers Verif.ParaTypes Verif.MapperAgg Verif.Heap Verif.SpecHeap Verif.HeapFacts
  Verif.HeapSep Verif.HeapCopy Verif.HeapRefine Verif.HeapRefine2 Verif.HeapRefine3.

(** ** What an object stands for depends on the objects it reaches *)
Definition agree (h h' : heap) (x : hval) : Prop := forall l, reaches h x l -> nth_error h' l = nth_error h l.
Lemma agree_here h h' l o : agree h h' (HRef l) -> nth_error h l = Some o -> nth_error h' l = Some o.
Proof. intros A E. rewrite A; auto. constructor. apply nth_error_Some. congruence. Qed.
Lemma agree_slot h h' l o v : agree h h' (HRef l) -> nth_error h l = Some o -> In v (slots o) -> agree h h' v.
Proof. intros A E I k R. apply A. econstructor; eauto. Qed.
Lemma agree_attr h h' l cls attrs n v : agree h h' (HRef l) -> nth_error h l = Some (OInst cls attrs) ->
  assoc_s attrs n = Some v -> agree h h' v.
Proof. intros A E S. eapply agree_slot; eauto. cbn. eapply assoc_s_in; eauto. Qed.
Lemma view_access_agree h h' x a : agree h h' x -> view_access h x = Some a -> view_access h' x = Some a.
Proof.
  intros A. unfold view_access, attr. destruct x; try discriminate.
  destruct (nth_error h l) as [ob|] eqn:E; [|discriminate]. now rewrite (agree_here _ _ _ _ A E).
Qed.
Lemma view_val_agree h h' x p : agree h h' x -> view_val h x = Some p -> view_val h' x = Some p.
Proof.
  rewrite !view_val_form. intros A V; revert A; destruct V as [| |l attrs s E1 E2|l attrs s r a E1 E2 E3 E4|l attrs s r a E1 E2 E3 E4]; intros A.
  - constructor.
  - constructor.
  - eapply vf_arg; [eapply agree_here; eauto|exact E2].
  - eapply vf_file; [eapply agree_here; eauto|exact E2|exact E3|]. eapply view_access_agree; [|exact E4]. eapply agree_attr; eauto.
  - eapply vf_std; [eapply agree_here; eauto|exact E2|exact E3|]. eapply view_access_agree; [|exact E4]. eapply agree_attr; eauto.
Qed.
Lemma view_flag_agree h h' x f : agree h h' x -> view_flag h x = Some f -> view_flag h' x = Some f.
Proof.
  rewrite !view_flag_form. intros A V; revert A; destruct V as [l attrs n E1 E2|l attrs n y p E1 E2 E3 E4|l attrs n y p E1 E2 E3 E4]; intros A.
  - eapply ff_flag; [eapply agree_here; eauto|exact E2].
  - eapply ff_var; [eapply agree_here; eauto|exact E2|exact E3|]. eapply view_val_agree; [|exact E4]. eapply agree_attr; eauto.
  - eapply ff_io; [eapply agree_here; eauto|exact E2|exact E3|]. eapply view_val_agree; [|exact E4]. eapply agree_attr; eauto.
Qed.
Lemma views_agree A (view : heap -> hval -> option A) h h' x l :
  (forall y p, agree h h' y -> view h y = Some p -> view h' y = Some p) ->
  agree h h' x -> views view h x l -> views view h' x l.
Proof.
  intros F G (a & vs & -> & E & Q). exists a, vs. split; [auto|]. split; [eapply agree_here; eauto|].
  assert (S : forall v, In v vs -> agree h h' v) by (intros v I; eapply agree_slot; eauto).
  clear -F Q S. induction Q; constructor; [apply F; auto; apply S; now left|]. apply IHQ. intros; apply S; now right.
Qed.
Lemma views_invocation_agree h h' x c : agree h h' x -> views_invocation h x c -> views_invocation h' x c.
Proof.
  intros A (a & cls & attrs & fl & ol & i & o & am & -> & E & Cl & E1 & E2 & V2 & E3 & V3 & E4 & V4 & E5 & V5 & E6 & V6).
  assert (G := fun n v => agree_attr h h' a cls attrs n v A E).
  exists a, cls, attrs, fl, ol, i, o, am. split; [reflexivity|]. split; [eapply agree_here; eauto|].
  split; [exact Cl|]. split; [exact E1|].
  split; [exact E2|]. split; [eapply views_agree; [apply view_flag_agree|eauto|eauto]|].
  split; [exact E3|]. split; [eapply views_agree; [apply view_val_agree|eauto|eauto]|].
  split; [exact E4|]. split; [eapply view_val_agree; eauto|].
  split; [exact E5|]. split; [eapply view_val_agree; eauto|].
  split; [exact E6|]. specialize (G _ _ E6). destruct V6 as (d & es & -> & Ed & V6). exists d, es.
  split; [auto|]. split; [eapply agree_here; eauto|]. intros k. specialize (V6 k).
  destruct (assoc_z es k) as [v|] eqn:Ek; auto. destruct V6 as (acc & V & W). exists acc. split; auto.
  eapply view_access_agree; [|exact V]. eapply agree_slot; [exact G|exact Ed|]. cbn. eapply assoc_z_in; eauto.
Qed.
Lemma Forall2_in_l A B (R : A -> B -> Prop) l l' : Forall2 R l l' -> forall x, In x l -> exists y, R x y.
Proof. induction 1; cbn; intros z I; [destruct I|]. destruct I as [<-|I]; eauto. Qed.
Lemma reaches_bound h x l : reaches h x l -> l < length h.
Proof. induction 1; auto. Qed.
Lemma reaches_unchanged h h' : closed h -> unchanged h h' -> forall x l, reaches h' x l -> valid h x -> reaches h x l.
Proof.
  intros C U x l R. induction R as [l L|l o v l' E I R IH]; intros V; cbn in V.
  - now constructor.
  - rewrite U in E by auto. econstructor; eauto. apply IH. assert (W := C _ (nth_error_In _ _ E)).
    rewrite Forall_forall in W. auto.
Qed.

(** ** C48 *)

(** Whatever the outcome, no object that existed before is changed by asking for a mapper; the
    mapper consists of new objects only; and the outcome is the one described by the model of values (C43-C45). *)
Theorem C48_mapper : forall s s' orig c i o aux aux' h h' r,
  closed h -> views_invocation h orig c -> variables h aux aux' -> views_mapper_spec h s s' ->
  get_mapper_h s orig i o aux h = (h', r) ->
  unchanged h h' /\ closed h' /\
  (forall m l, r = Ok (Some m) -> reaches h' m l -> length h <= l) /\
  same_outcome views_invocation (h', r) (get_mapper s' c i o aux').
Proof.
  intros s s' orig c i o aux aux' h h' r C V A T E.
  assert (Vt : valid_transformer h (hms_transformer s)) by (eapply views_transformer_valid; apply T).
  destruct (get_mapper_frame s orig i o aux h h' r C (views_invocation_valid _ _ _ V) (variables_valid _ _ _ A) Vt E)
    as (U & L & C').
  split; [exact U|]. split; [exact C'|]. split.
  - intros m l -> R. eapply newly_reaches; [|exact R].
    eapply get_mapper_newly; eauto using views_invocation_valid.
  - rewrite <- E. now apply get_mapper_views.
Qed.
Print Assumptions C48_mapper.

(** The same for aggregators *)
Theorem C48_aggregator : forall dir a a' orig c ins ins' o h h' r,
  closed h -> views_invocation h orig c -> variables h ins ins' -> views_agg_spec h a a' ->
  get_aggregator_h dir a orig ins o h = (h', r) ->
  unchanged h h' /\ closed h' /\
  (forall m l, r = Ok (Some m) -> reaches h' m l -> length h <= l) /\
  same_outcome views_aggregator (h', r) (get_aggregator dir a' c ins' o).
Proof.
  intros dir a a' orig c ins ins' o h h' r C V A T E.
  assert (Vt : valid_transformer h (hagg_transformer a)).
  { destruct a as [| |], a'; cbn in T |- *; try constructor; try contradiction.
    eapply views_transformer_valid; apply T. }
  destruct (get_aggregator_frame dir a orig ins o h h' r C (views_invocation_valid _ _ _ V) (variables_valid _ _ _ A) Vt E)
    as (U & L & C' & N).
  split; [exact U|]. split; [exact C'|]. split.
  - intros m l Q R. eapply newly_reaches; [|exact R]. auto.
  - rewrite <- E. now apply get_aggregator_views.
Qed.
Print Assumptions C48_aggregator.

(** The same for aggregators with auxiliary variables, which do not look at an original invocation *)
Theorem C48_with_aux : forall dir a a' i1 x1 l1 i2 x2 l2 o x3 l3 h h' r,
  closed h -> variables h x1 l1 -> variables h x2 l2 -> variables h x3 l3 -> views_agg_spec h a a' ->
  get_2_ary_with_aux_h dir a i1 x1 i2 x2 o x3 h = (h', r) ->
  unchanged h h' /\ closed h' /\
  (forall m l, r = Ok m -> reaches h' m l -> length h <= l) /\
  match r, get_actual_2_ary_aggregator_with_aux dir a' i1 l1 i2 l2 o l3 with
  | Ok m, Ok ag => views_aggregator h' m ag
  | Raise e, Raise e' => e = e'
  | _, _ => False
  end.
Proof.
  intros dir a a' i1 x1 l1 i2 x2 l2 o x3 l3 h h' r C X1 X2 X3 T E.
  destruct (get_2_ary_frame dir a i1 x1 i2 x2 o x3 h h' r C) as (U & L & C' & N); eauto using variables_valid.
  split; [exact U|]. split; [exact C'|]. split.
  - intros m l Q R. eapply newly_reaches; [|exact R]. auto.
  - assert (Y := get_2_ary_views h dir a a' i1 x1 l1 i2 x2 l2 o x3 l3 C X1 X2 X3 T). rewrite E in Y.
    destruct r; exact Y.
Qed.
Print Assumptions C48_with_aux.

(** Nothing that existed is changed even if the arguments are not what they should be: any values, any objects. *)
Theorem C48_any_arguments : forall dir s a orig x i o h,
  closed h -> valid h orig -> valid h x ->
  valid_transformer h (hms_transformer s) -> valid_transformer h (hagg_transformer a) ->
  unchanged h (fst (get_mapper_h s orig i o x h)) /\ unchanged h (fst (get_aggregator_h dir a orig x o h)).
Proof.
  intros dir s a orig x i o h C V X T T'. split.
  - destruct (get_mapper_h s orig i o x h) as (h' & r) eqn:E.
    now destruct (get_mapper_frame s orig i o x h h' r C V X T E).
  - destruct (get_aggregator_h dir a orig x o h) as (h' & r) eqn:E.
    now destruct (get_aggregator_frame dir a orig x o h h' r C V X T' E).
Qed.
Print Assumptions C48_any_arguments.

(** Any number of requests for the same invocation: the invocation stays what it was, every answer
    is the one for the unchanged invocation, also after the later requests, and no two answers share an object. *)
Definition disjoint_from (h : heap) (r r' : result (option hval)) : Prop :=
  forall m m' l, r = Ok (Some m) -> r' = Ok (Some m') -> reaches h m l -> ~ reaches h m' l.
Definition answered (h : heap) (r : result (option hval)) (a : result (option civ)) : Prop :=
  same_outcome views_invocation (h, r) a.
Lemma request_unchanged h h' q : unchanged h h' -> request_ok h q -> request_ok h' q.
Proof.
  intros U. destruct q as [s s' i o aux aux'|a a' ins ins' o]; cbn; intros (A & B); split;
    try (eapply variables_unchanged; eauto; fail).
  - destruct A as (A1 & A2 & A3 & A4 & A5). split; [auto|]. split; [auto|].
    split; [eapply views_transformer_unchanged; eauto|auto].
  - destruct a, a'; cbn in *; auto. destruct A as (A1 & A2 & A3). split; [auto|].
    split; [eapply views_transformer_unchanged; eauto|auto].
Qed.
Lemma request_step dir orig c q h h' r : closed h -> views_invocation h orig c -> request_ok h q ->
  do_request dir orig q h = (h', r) ->
  unchanged h h' /\ closed h' /\ (forall m l, r = Ok (Some m) -> reaches h' m l -> length h <= l) /\
  answered h' r (answer dir c q).
Proof.
  intros C V O E. destruct q as [s s' i o aux aux'|a a' ins ins' o]; cbn in O, E; destruct O as (A & B).
  - exact (C48_mapper _ _ _ _ _ _ _ _ _ _ _ C V B A E).
  - destruct (C48_aggregator _ _ _ _ _ _ _ _ _ _ _ C V B A E) as (U & C' & N & S).
    split; [auto|]. split; [auto|]. split; [auto|]. cbn [answer]. unfold answered, same_outcome in *.
    destruct r as [[x|]|e], (get_aggregator dir a' c ins' o) as [[(k & c')|]|e']; auto. apply S.
Qed.
Lemma planning_invariant dir orig c qs : forall h h' rs,
  closed h -> views_invocation h orig c -> Forall (request_ok h) qs -> planning dir orig qs h = (h', rs) ->
  unchanged h h' /\ closed h' /\
  Forall2 (answered h') rs (map (answer dir c) qs) /\
  Forall (fun r => forall m l, r = Ok (Some m) -> reaches h' m l -> length h <= l) rs /\
  ForallOrdPairs (disjoint_from h') rs.
Proof.
  induction qs as [|q qs IH]; intros h h' rs C V O P; cbn in P.
  - injection P as <- <-. split; [apply unchanged_refl|]. split; [auto|]. split; [constructor|]. split; constructor.
  - apply Forall_cons_iff in O as (O1 & O2).
    destruct (do_request dir orig q h) as (h1 & r) eqn:Eq.
    destruct (planning dir orig qs h1) as (h2 & rs0) eqn:Ep. injection P as <- <-. rename h2 into h'.
    destruct (request_step dir orig c q h h1 r C V O1 Eq) as (U1 & C1 & N1 & A1).
    assert (O2' : Forall (request_ok h1) qs) by (eapply Forall_impl; [|exact O2]; intros; eapply request_unchanged; eauto).
    destruct (IH h1 h' rs0 C1 (views_invocation_unchanged _ _ _ _ U1 V) O2' Ep) as (U2 & C2 & A2 & N2 & D2).
    assert (U := unchanged_trans _ _ _ U1 U2). assert (L1 := unchanged_length _ _ U1).
    assert (Va : forall m, r = Ok (Some m) -> valid h1 m).
    { intros m ->. unfold answered, same_outcome in A1. destruct (answer dir c q) as [[x|]|]; try contradiction.
      eapply views_invocation_valid; eauto. }
    split; [exact U|]. split; [exact C2|]. split; [|split].
    + cbn. constructor; [|exact A2]. unfold answered, same_outcome in *.
      destruct r as [[x|]|e], (answer dir c q) as [[y|]|e']; try contradiction; auto.
      exact (views_invocation_unchanged _ _ _ _ U2 A1).
    + constructor.
      * intros m l E R. apply (N1 m l E). eapply reaches_unchanged; eauto.
      * eapply Forall_impl; [|exact N2]. intros a Ha m l E R. specialize (Ha m l E R). lia.
    + constructor; [|exact D2]. apply Forall_forall. intros r' Hr m m' l E E' R R'.
      rewrite Forall_forall in N2. specialize (N2 r' Hr m' l E' R').
      assert (B := reaches_bound _ _ _ (reaches_unchanged _ _ C1 U2 _ _ R (Va m E))). lia.
Qed.
Theorem C48_planning : forall dir orig c qs h h' rs,
  closed h -> views_invocation h orig c -> Forall (request_ok h) qs -> planning dir orig qs h = (h', rs) ->
  unchanged h h' /\ views_invocation h' orig c /\
  Forall2 (answered h') rs (map (answer dir c) qs) /\
  ForallOrdPairs (disjoint_from h') rs.
Proof.
  intros dir orig c qs h h' rs C V O P. destruct (planning_invariant dir orig c qs h h' rs C V O P) as (U & _ & A & _ & D).
  split; [exact U|]. split; [eapply views_invocation_unchanged; eauto|auto].
Qed.
Print Assumptions C48_planning.

(** A program that holds the results of any requests (and whatever can be reached from them), and
    creates and overwrites objects as it likes, does not change what the original invocation stands
    for, nor any other object that existed before. *)
Theorem C48_result_used : forall dir orig c qs h h1 rs held h2 held',
  closed h -> views_invocation h orig c -> Forall (request_ok h) qs -> planning dir orig qs h = (h1, rs) ->
  (forall v, In v held -> In (Ok (Some v)) rs) ->
  client h1 held h2 held' ->
  views_invocation h2 orig c /\ forall l, l < length h -> nth_error h2 l = nth_error h l.
Proof.
  intros dir orig c qs h h1 rs held h2 held' C V O P H Cl.
  destruct (planning_invariant dir orig c qs h h1 rs C V O P) as (U & C1 & A & N & _).
  assert (L := unchanged_length _ _ U). rewrite Forall_forall in N.
  assert (F : forall l, l < length h -> nth_error h2 l = nth_error h l).
  { intros l Hl. rewrite <- U by auto.
    apply (client_confined (fun k => length h <= k /\ ((exists v, In v held /\ reaches h1 v k) \/ length h1 <= k))
             h1 held h2 held' (length h1) Cl).
    - lia.
    - intros k Hk. split; [lia|auto].
    - intros k ob v (Hk & [(w & Hw & R)|Hk']) E Hv; [|apply nth_error_None in Hk'; congruence].
      destruct v; auto. assert (R' : reaches h1 w l0).
      { clear -R E Hv C1. induction R as [k L|a o' v' k Ea Iv R IH].
        - econstructor; [exact E|exact Hv|]. constructor. assert (W := C1 _ (nth_error_In _ _ E)).
          rewrite Forall_forall in W. exact (W _ Hv).
        - econstructor; [exact Ea|exact Iv|auto]. }
      split; [eapply N; eauto|left; eauto].
    - apply Forall_forall. intros v Hv. destruct v; auto.
      assert (Hr := H _ Hv).
      assert (Lv : l0 < length h1).
      { destruct (Forall2_in_l _ _ _ _ _ A _ Hr) as (y & Hy). unfold answered, same_outcome in Hy.
        destruct y as [[x|]|]; try contradiction. apply views_invocation_valid in Hy. exact Hy. }
      assert (R : reaches h1 (HRef l0) l0) by now constructor.
      split; [eapply N; eauto|left; eauto].
    - intros (Hl' & _). lia. }
  split; [|exact F]. eapply views_invocation_unchanged; [|exact V]. exact F.
Qed.
Print Assumptions C48_result_used.

(** Conversely, a program that holds any objects that existed before (the original invocation, the
    specification, the lists passed to the requests) does not change what the results stand for. *)
Theorem C48_original_used : forall dir orig c qs h h1 rs held h2 held',
  closed h -> views_invocation h orig c -> Forall (request_ok h) qs -> planning dir orig qs h = (h1, rs) ->
  Forall (valid h) held -> client h1 held h2 held' ->
  Forall2 (answered h2) rs (map (answer dir c) qs).
Proof.
  intros dir orig c qs h h1 rs held h2 held' C V O P H Cl.
  destruct (planning_invariant dir orig c qs h h1 rs C V O P) as (U & C1 & A & N & _).
  assert (F := older_client h h1 held h2 held' C U (unchanged_length _ _ U) H Cl). clear -A N F.
  revert N. induction A as [|r a rs as_ A0 A IH]; intros N; [constructor|].
  apply Forall_cons_iff in N as (N1 & N2). constructor; [|auto].
  unfold answered, same_outcome in *. destruct r as [[x|]|e], a as [[y|]|e']; auto.
  eapply views_invocation_agree; [|exact A0]. intros l R. apply F; [eapply N1; eauto|]. eapply reaches_bound; eauto.
Qed.
Print Assumptions C48_original_used.

(** deepcopy always ends with a copy, however the objects refer to each other: the bound of the model is never reached. *)
Theorem C48_deepcopy_total : forall h v, closed h -> valid h v -> exists h' w, deepcopy v h = (h', Ok w).
Proof.
  intros h v C V. destruct (deepcopy_spec h v C V) as (h' & m & w & E & _). eauto.
Qed.
Print Assumptions C48_deepcopy_total.

(** ** Cases *)
(** [sort -n] of variable 0 to variable 1, a list of flags of a transformer and a list with two inputs *)
Definition example_heap : heap :=
  [OInst "AccessKind" [("kind", HAccess STREAM_INPUT)]; OInst "AccessKind" [("kind", HAccess STREAM_OUTPUT)];
   OInst "Flag" [("flag_name", HStr "-n")]; OList [HRef 2]; OList [HInt 0]; ODict [(0%Z, HRef 0); (1%Z, HRef 1)];
   OInst "CommandInvocationWithIOVars"
     [("cmd_name", HStr "sort"); ("flag_option_list", HRef 3); ("operand_list", HRef 4);
      ("implicit_use_of_streaming_input", HNone); ("implicit_use_of_streaming_output", HInt 1); ("access_map", HRef 5)];
   OList []; OInst "Flag" [("flag_name", HStr "-m")]; OList [HRef 8]; OList [HInt 10; HInt 11]].
Definition example_civ : civ :=
  mkCiv "sort" [FFlag "-n"] [PVar 0] PNone (PVar 1) (am_set (am_set am_empty 1 STREAM_OUTPUT) 0 STREAM_INPUT).
Definition example_requests : list request :=
  [RMapper (mkHMapperSpec SAME_AS_SEQ None HTSeq true) (mkMapperSpec SAME_AS_SEQ None TSeq true) 20 21 (HRef 7) [];
   RAggregator (HAggTransformer CUSTOM_N_ARY (HTAdd (HRef 9)) true) (AggTransformer CUSTOM_N_ARY (TAdd [FFlag "-m"]) true)
     (HRef 10) [10; 11]%Z 30;
   RAggregator (HAggTransformer CUSTOM_2_ARY (HTAdd (HRef 9)) true) (AggTransformer CUSTOM_2_ARY (TAdd [FFlag "-m"]) true)
     (HRef 4) [0]%Z 1;
   RMapper (mkHMapperSpec SAME_AS_SEQ None HTSeq true) (mkMapperSpec SAME_AS_SEQ None TSeq true) 20 21 (HRef 10) [10; 11]%Z].
Example C48_case_closed : closed example_heap.
Proof.
  intros o H. cbn in H. repeat (destruct H as [<-|H]; [cbn; repeat constructor; cbn; lia|]). destruct H.
Qed.
Example C48_case_views : views_invocation example_heap (HRef 6) example_civ.
Proof.
  eexists 6, _, _, _, _, _, _, _. split; [reflexivity|]. split; [reflexivity|]. split; [left; reflexivity|].
  split; [reflexivity|]. split; [reflexivity|].
  split; [eexists _, _; split; [reflexivity|]; split; [reflexivity|]; repeat constructor|].
  split; [reflexivity|]. split; [eexists _, _; split; [reflexivity|]; split; [reflexivity|]; repeat constructor|].
  do 4 (split; [reflexivity|]). split; [reflexivity|]. eexists _, _. split; [reflexivity|]. split; [reflexivity|].
  intros k. cbn [assoc_z v_acc example_civ]. unfold am_set, am_empty. rewrite !(Z.eqb_sym k).
  destruct (Z.eqb 0 k); [eexists; split; reflexivity|]. destruct (Z.eqb 1 k); [eexists; split; reflexivity|reflexivity].
Qed.
Example C48_case_requests : Forall (request_ok example_heap) example_requests.
Proof.
  assert (T : views_transformer example_heap (HTAdd (HRef 9)) (TAdd [FFlag "-m"])).
  { constructor. eexists _, _. split; [reflexivity|]. split; [reflexivity|]. repeat constructor. }
  assert (P : plain_transformer (TAdd [FFlag "-m"])) by (constructor; cbn; intuition discriminate).
  constructor; [|constructor; [|constructor; [|constructor; [|constructor]]]]; cbn.
  - split; [|eexists; split; reflexivity]. split; [reflexivity|]. split; [reflexivity|]. repeat constructor.
  - split; [|eexists; split; reflexivity]. auto.
  - split; [|eexists; split; reflexivity]. auto.
  - split; [|eexists; split; reflexivity]. split; [reflexivity|]. split; [reflexivity|]. repeat constructor.
Qed.
Example C48_case_planning :
  let (h', rs) := planning (fun _ => FNotFound) (HRef 6) example_requests example_heap in
  rs = [Ok (Some (HRef 17)); Ok (Some (HRef 46)); Raise AssertionError; Ok (Some (HRef 53))] /\
  map (fun r => match r with Ok (Some c) => Some (v_flags c, v_ops c, v_out c) | _ => None end)
      (map (answer (fun _ => FNotFound) example_civ) example_requests) =
  [Some ([FFlag "-n"], [PVar 20], PVar 21);
   Some ([FFlag "-n"; FFlag "-m"], [PVar 10; PVar 11], PVar 30);
   None;
   Some ([FFlag "-n"], [PVar 20; PVar 21; PVar 10; PVar 11], PNone)]%Z.
Proof. vm_compute. split; reflexivity. Qed.
(** A program that empties the list of flags of the first result *)
Example C48_case_client :
  let h1 := fst (planning (fun _ => FNotFound) (HRef 6) example_requests example_heap) in
  nth_error h1 22 = Some (OList [HRef 12]) /\ client h1 [HRef 17] (update h1 22 (OList [])) [HRef 22; HRef 17].
Proof.
  assert (E : exists h, fst (planning (fun _ => FNotFound) (HRef 6) example_requests example_heap) = h /\
    nth_error h 22 = Some (OList [HRef 12]) /\
    exists o, nth_error h 17 = Some o /\ In (HRef 22) (slots o)).
  { eexists. split; [vm_compute; reflexivity|]. split; [reflexivity|]. eexists. split; [reflexivity|]. cbn. auto. }
  cbv zeta. destruct E as (h1 & -> & E & o & Eo & I). split; [exact E|].
  apply (client_read h1 _ 17 o (HRef 22)); [now left|exact Eo|exact I|].
  apply client_write with (l := 22) (o := OList []); [now left|constructor|apply client_stop].
Qed.
