(** * C93: the parallelizers added by get_inferred_parallelizer_list are objects of their own *)
From Coq Require Import Lia ZArith.
Require Import Verif.PyBase Verif.Transformers Verif.ParaTypes Verif.Heap Verif.HeapEq Verif.HeapInfer Verif.SpecLists Verif.SpecHeap Verif.SpecHeapEq Verif.SpecPara Verif.SpecInfer
  Verif.HeapFacts Verif.HeapSep Verif.HeapEqFacts Verif.HeapEqProps Verif.ParaProps Verif.P_Heap Verif.P_HeapEq Verif.InferFacts.
Local Notation kept := SpecLists.kept.

(** The call ends and returns the very list of the information, to which it has added, for a
    commutative command, one parallelizer per parallelizer with consecutive chunks, in order.  An
    added parallelizer equals the other in all attributes but the splitter.  It consists of new
    objects only, and no two of them share any.  No other object has changed. *)
Theorem C93_inferred : forall h x commutative la ps, info_ok h x commutative la ps ->
  exists h' sel qs, infers h x h' (HRef la) /\
    (forall l, l < length h -> l <> la -> nth_error h' l = nth_error h l) /\
    nth_error h' la = Some (OList (ps ++ qs)) /\
    kept (fun p => commutative = true /\ splits_by h CONSEC_CHUNKS p) ps sel /\
    Forall2 (same_but_splitter h' ROUND_ROBIN_UNWRAP_FLAG) sel qs /\
    (forall q l, In q qs -> reaches h' q l -> length h <= l) /\
    ForallOrdPairs (disjoint h') qs.
Proof.
  intros h x b la ps OK. destruct (infers_spec h x b la ps OK) as (h' & sel & qs & R & S). exists h', sel, qs.
  split; [exact R|]. split; [apply S|]. split; [apply S|]. split; [apply S|]. split; [|split; [|apply S]].
  - eapply forall2_impl; [apply S|]. intros p q Ip Iq L. apply like_spec; [exact (st_proper _ _ _ _ _ _ _ _ S)| |exact L].
    assert (I : In p ps) by apply (kept_in _ _ _ _ (st_sel _ _ _ _ _ _ _ _ S) Ip). eapply grounded_agree; [apply (own h x b la ps OK p I)|]. eapply agree_old; eauto.
  - intros q l I. apply (st_new _ _ _ _ _ _ _ _ S q I).
Qed.
Print Assumptions C93_inferred.
Theorem C93_one_result : forall h x h1 r1 h2 r2, infers h x h1 r1 -> infers h x h2 r2 -> h1 = h2 /\ r1 = r2.
Proof.
  intros h x h1 r1 h2 r2 (n & A) (m & B). specialize (A (n + m) ltac:(lia)). specialize (B (n + m) ltac:(lia)).
  rewrite A in B. injection B as -> ->. auto.
Qed.
Print Assumptions C93_one_result.
(** The information can be asked again: all that is said about it is still true. *)
Theorem C93_again : forall h x commutative la ps h' r, info_ok h x commutative la ps -> infers h x h' r ->
  r = HRef la /\ exists qs, nth_error h' la = Some (OList (ps ++ qs)) /\ info_ok h' x commutative la (ps ++ qs).
Proof.
  intros h x b la ps h' r OK R. destruct (infers_spec h x b la ps OK) as (h1 & sel & qs & R1 & S).
  destruct (C93_one_result _ _ _ _ _ _ R R1) as (-> & ->). split; [reflexivity|]. exists qs. split; [apply S|].
  split; [apply S|]. split; [apply S|]. split; [|split; [apply S|]].
  - pose proof OK as OK'. destruct OK' as (_ & _ & (a & attrs & E & A & B) & E' & _). exists a, attrs. split; [exact E|].
    split; [|exact B]. rewrite (st_frame _ _ _ _ _ _ _ _ S); [exact A| |]; [apply nth_error_Some; congruence|]. intros ->. congruence.
  - apply Forall_app. split; apply Forall_forall.
    + intros p I. destruct (own h x b la ps OK p I) as ((V & G & W & N) & (k & K)). pose proof (agree_old h x b la ps OK _ _ _ _ p S I) as A. split.
      * assert (C : closed h) by apply OK. split; [eapply valid_mono; [apply S|exact V]|]. split; [eapply grounded_agree; eauto|]. split.
        -- intros X. apply W. eapply without_eq_agree; eauto.
        -- intros X. apply N. eapply agree_reaches; eauto.
      * exists k. eapply splits_by_agree; eauto.
    + intros q I. split; [apply (st_new _ _ _ _ _ _ _ _ S q I)|]. exists ROUND_ROBIN_UNWRAP_FLAG.
      pose proof (st_like _ _ _ _ _ _ _ _ S) as F. clear -F I. induction F as [|p q' l l' L F IH]; [contradiction|]. destruct I as [->|I]; [|auto].
      destruct L as (? & ? & ? & ? & _ & _ & _ & _ & _ & _ & H). exact H.
Qed.
Print Assumptions C93_again.
(** The kinds of splitters are those of the model of values. *)
Theorem C93_kinds : forall h x commutative la ps h' r i l i',
  info_ok h x commutative la ps -> infers h x h' r ->
  is_commutative i = commutative -> Forall2 (fun p o => splits_by h (p_splitter p) o) (parallelizer_list i) ps -> inferring i l i' ->
  exists rs, nth_error h' la = Some (OList rs) /\ Forall2 (fun p o => splits_by h' (p_splitter p) o) l rs.
Proof.
  intros h x b la ps h' r i l i' OK R Hb F I. destruct (infers_spec h x b la ps OK) as (h1 & sel & qs & R1 & S).
  destruct (C93_one_result _ _ _ _ _ _ R R1) as (-> & ->). exists (ps ++ qs). split; [apply S|].
  apply inferring_eq in I as (-> & _). unfold inferred. apply Forall2_app.
  - assert (A : forall p, In p ps -> agree h h1 p) by (intros p J; eapply agree_old; eauto). clear -F A.
    induction F as [|p o l l' X F IH]; constructor; [eapply splits_by_agree; [apply A; now left|exact X]|]. apply IH. intros q J. apply A. now right.
  - rewrite Hb. pose proof (st_like _ _ _ _ _ _ _ _ S) as Lk. pose proof (st_sel _ _ _ _ _ _ _ _ S) as Ks. clear -F Lk Ks.
    revert sel qs Lk Ks. induction F as [|p o l l' X F IH]; intros sel qs Lk Ks.
    + inversion Ks; subst. inversion Lk; subst. destruct b; constructor.
    + inversion Ks as [|y l1 l2 P K|y l1 l2 P K]; subst.
      * destruct P as (-> & P). inversion Lk as [|y q l3 qs' L Lk']; subst. cbn [copies]. rewrite (splits_by_fun _ _ _ _ X P). cbn [is_splitter_consec_chunks].
        constructor; [|apply (IH _ _ Lk' K)]. destruct L as (? & ? & ? & ? & _ & _ & _ & _ & _ & _ & H). exact H.
      * specialize (IH _ _ Lk K). destruct b; [|exact IH]. cbn [copies]. destruct (is_splitter_consec_chunks (p_splitter p)) eqn:E; [|exact IH].
        exfalso. apply P. split; [reflexivity|]. destruct (p_splitter p); try discriminate. exact X.
Qed.
Print Assumptions C93_kinds.

(** A client that holds only added parallelizers changes no object there was before; one that
    holds only the parallelizers there were before changes nothing of an added one. *)
Lemma reaches_held (h : heap) (vs : list hval) : closed h ->
  forall l o v, ((exists q, In q vs /\ reaches h q l) \/ length h <= l) -> nth_error h l = Some o -> In v (slots o) ->
    match v with HRef k => (exists q, In q vs /\ reaches h q k) \/ length h <= k | _ => True end.
Proof.
  intros C l o v [(q & I & R)|L] E J.
  - destruct v; auto. left. exists q. split; [exact I|]. eapply reaches_trans; [exact R|]. eapply reaches_slot; [exact E|exact J|]. constructor.
    assert (W := C _ (nth_error_In _ _ E)). rewrite Forall_forall in W. exact (W _ J).
  - assert (l < length h) by (apply nth_error_Some; congruence). lia.
Qed.
Lemma held_confined (h : heap) (vs : list hval) h2 held : closed h -> Forall (valid h) vs -> client h vs h2 held ->
  forall l, l < length h -> (forall q, In q vs -> ~ reaches h q l) -> nth_error h2 l = nth_error h l.
Proof.
  intros C V Cl l L N. eapply (client_confined (fun k => (exists q, In q vs /\ reaches h q k) \/ length h <= k)); [exact Cl|apply le_n|auto|apply reaches_held, C| |].
  - rewrite Forall_forall in *. intros v I. destruct v as [| | | | | | |k]; auto. left. exists (HRef k). split; [exact I|]. constructor. exact (V _ I).
  - intros [(q & I & R)|G]; [exact (N q I R)|lia].
Qed.
Theorem C93_independent : forall h x commutative la ps h' r, info_ok h x commutative la ps -> infers h x h' r ->
  exists qs, nth_error h' la = Some (OList (ps ++ qs)) /\
    (forall h2 held, client h' qs h2 held -> forall l, l < length h -> nth_error h2 l = nth_error h' l) /\
    (forall h2 held, client h' ps h2 held -> forall q l, In q qs -> reaches h' q l -> nth_error h2 l = nth_error h' l) /\
    (forall q h2 held, In q qs -> client h' [q] h2 held ->
       forall q' l, In q' qs -> q' <> q -> reaches h' q' l -> nth_error h2 l = nth_error h' l).
Proof.
  intros h x b la ps h' r OK R. destruct (infers_spec h x b la ps OK) as (h1 & sel & qs & R1 & S).
  destruct (C93_one_result _ _ _ _ _ _ R R1) as (-> & ->). exists qs. split; [apply S|].
  pose proof (st_length _ _ _ _ _ _ _ _ S) as L. pose proof (st_new _ _ _ _ _ _ _ _ S) as New.
  assert (C1 : closed h1) by apply S.
  split; [|split].
  - intros h2 held Cl l Ll. eapply held_confined; [exact C1| |exact Cl|lia|].
    + apply Forall_forall. intros q I. apply (New q I).
    + intros q I Rq. apply (New q I) in Rq. lia.
  - intros h2 held Cl q l I Rq. eapply held_confined; [exact C1| |exact Cl|eapply reaches_bound; eauto|].
    + apply Forall_forall. intros p J. destruct (own h x b la ps OK p J) as ((V & _) & _). eapply valid_mono; [exact L|exact V].
    + intros p J Rp. apply (New q I) in Rq. destruct (own h x b la ps OK p J) as ((V & _) & _).
      pose proof (agree_reaches h h1 p l ltac:(apply OK) Rp V (agree_old h x b la ps OK _ _ _ _ p S J)) as Rp'. apply reaches_bound in Rp'. lia.
  - intros q h2 held I Cl q' l I' N Rq. eapply held_confined; [exact C1| |exact Cl|eapply reaches_bound; eauto|].
    + constructor; [apply (New q I)|constructor].
    + intros p [<-|[]] Rp. pose proof (st_disjoint _ _ _ _ _ _ _ _ S) as D. apply (ForallOrdPairs_In D _ _ I) in I' as [I'|[I'|I']]; [congruence|..].
      * exact (I' l Rp Rq).
      * exact (I' l Rq Rp).
Qed.
Print Assumptions C93_independent.

Lemma forall2_join (P Q R : hval -> hval -> Prop) l a : Forall2 P l a -> forall b, Forall2 Q l b ->
  (forall p q q', P p q -> Q p q' -> R q q') -> Forall2 R a b.
Proof. induction 1; intros b F H'; inversion F; subst; constructor; eauto. Qed.
(** A second call adds parallelizers that equal those of the first and are other objects. *)
Theorem C93_repeated : forall h x commutative la ps h1 r1 h2 r2, info_ok h x commutative la ps -> infers h x h1 r1 -> infers h1 x h2 r2 ->
  r1 = r2 /\ exists qs qs', nth_error h1 la = Some (OList (ps ++ qs)) /\ nth_error h2 la = Some (OList ((ps ++ qs) ++ qs')) /\
    Forall2 (fun q q' => equal h2 q q' /\ q <> q') qs qs'.
Proof.
  intros h x b la ps h1 r1 h2 r2 OK R1 R2. destruct (C93_again _ _ _ _ _ _ _ OK R1) as (-> & qs & E1 & OK1).
  destruct (infers_spec h x b la ps OK) as (h1' & sel & qs0 & R1' & S1). destruct (C93_one_result _ _ _ _ _ _ R1 R1') as (<- & _).
  assert (qs0 = qs) as ->.
  { pose proof (st_list _ _ _ _ _ _ _ _ S1) as E. rewrite E1 in E. injection E as E. symmetry. now apply app_inv_head in E. }
  destruct (infers_spec h1 x b la (ps ++ qs) OK1) as (h2' & sel2 & qs2 & R2' & S2). destruct (C93_one_result _ _ _ _ _ _ R2 R2') as (<- & ->).
  split; [reflexivity|]. exists qs, qs2. split; [exact E1|]. split; [apply S2|].
  assert (Sp : forall q, In q qs -> splits_by h1 ROUND_ROBIN_UNWRAP_FLAG q).
  { intros q I. pose proof (st_like _ _ _ _ _ _ _ _ S1) as F. clear -F I. induction F as [|p q' l l' L F IH]; [contradiction|]. destruct I as [->|I]; [|auto].
    destruct L as (? & ? & ? & ? & _ & _ & _ & _ & _ & _ & H). exact H. }
  assert (sel2 = sel) as ->.
  { symmetry. eapply kept_unique; [exact (st_sel _ _ _ _ _ _ _ _ S1)| | |exact (st_sel _ _ _ _ _ _ _ _ S2)].
    - intros p I. pose proof (agree_old h x b la ps OK _ _ _ _ p S1 I) as A. destruct (own h x b la ps OK p I) as (_ & (k & K)).
      pose proof (splits_by_agree _ _ _ _ A K) as K1. split; intros (B & X); split; auto.
      + eapply splits_by_agree; eauto.
      + rewrite (splits_by_fun _ _ _ _ X K1). exact K.
    - intros q I (_ & X). pose proof (splits_by_fun _ _ _ _ X (Sp q I)). discriminate. }
  pose proof (st_like _ _ _ _ _ _ _ _ S1) as L1. pose proof (st_like _ _ _ _ _ _ _ _ S2) as L2.
  assert (Lk : Forall2 (fun p q => like h2 ROUND_ROBIN_UNWRAP_FLAG p q /\ In q qs) sel qs).
  { eapply forall2_impl; [exact L1|]. intros p q Ip Iq L. split; [|exact Iq].
    assert (I : In p (ps ++ qs)) by (apply in_or_app; left; apply (kept_in _ _ _ _ (st_sel _ _ _ _ _ _ _ _ S1) Ip)).
    eapply like_agree; [eapply (agree_old h1 x b la (ps ++ qs) OK1); eauto| |exact L]. eapply (agree_old h1 x b la (ps ++ qs) OK1); eauto. apply in_or_app; auto. }
  assert (L3 : Forall2 (fun p q => like h2 ROUND_ROBIN_UNWRAP_FLAG p q /\ In q qs2) sel qs2).
  { eapply forall2_impl; [exact L2|]. auto. }
  assert (Pair : forall p q q', like h2 ROUND_ROBIN_UNWRAP_FLAG p q /\ In q qs -> like h2 ROUND_ROBIN_UNWRAP_FLAG p q' /\ In q' qs2 -> equal h2 q q' /\ q <> q').
  { intros p q q' (A & I) (B & J). split.
    - apply C65_exact; [apply S2| |eapply like_same; eauto].
      assert (I' : In q (ps ++ qs)) by (apply in_or_app; auto).
      eapply grounded_agree; [apply (own h1 x b la (ps ++ qs) OK1 q I')|]. eapply (agree_old h1 x b la (ps ++ qs) OK1); eauto.
    - intros <-. destruct (st_new _ _ _ _ _ _ _ _ S2 q J) as (_ & N). destruct (st_new _ _ _ _ _ _ _ _ S1 q I) as ((V & _) & _).
      destruct A as (? & c & ? & ? & _ & _ & -> & E & _). cbn in V. specialize (N c). enough (length h1 <= c) by lia. apply N. constructor. apply nth_error_Some. congruence. }
  exact (forall2_join _ _ _ _ _ Lk _ L3 Pair).
Qed.
Print Assumptions C93_repeated.
(** The list returned is the one of the information: who holds it can empty it, and the next call
    returns nothing. *)
Theorem C93_list_shared : forall h x commutative la ps h1 r, info_ok h x commutative la ps -> infers h x h1 r ->
  exists h2 held, client h1 [r] h2 held /\ infers h2 x h2 r /\ nth_error h2 la = Some (OList []).
Proof.
  intros h x b la ps h1 r OK R. destruct (C93_again _ _ _ _ _ _ _ OK R) as (-> & qs & E & (C & P & I & _ & _)).
  assert (L : la < length h1) by (apply nth_error_Some; congruence).
  set (h2 := update h1 la (OList [])). exists h2, [HRef la].
  assert (E2 : nth_error h2 la = Some (OList [])) by now apply update_same.
  split; [|split; [|exact E2]].
  - apply (client_write h1 [HRef la] la (OList []) h2 [HRef la]); [now left|constructor|constructor].
  - destruct I as (a & attrs & -> & A & B & Cc). exists 1. intros fuel F. destruct fuel as [|fuel]; [lia|].
    assert (A2 : nth_error h2 a = Some (OInst "ParallelizabilityInfo" attrs)).
    { unfold h2. rewrite update_other; [exact A|]. intros ->. congruence. }
    unfold get_inferred_parallelizer_list_h, get_attr, hbind, get_obj. rewrite A2, B. cbn [hret].
    unfold hret. rewrite A2, B. cbn [infer_loop_h]. unfold items, hbind, get_obj, hret. rewrite E2. reflexivity.
Qed.
Print Assumptions C93_list_shared.

(** ** A case: a commutative command with two parallelizers, which share a mapper *)
Definition infer_heap : heap :=
  [OInst "Splitter" [("kind", HSplit CONSEC_CHUNKS)]; OInst "Splitter" [("kind", HSplit ROUND_ROBIN_PLAIN)];
   OInst "MapperSpec" [("spec_mapper_cmd_name", HStr "sort"); ("is_implemented", HInt 1)];
   OInst "AggregatorSpec" [("kind", HKind CONCATENATE); ("is_implemented", HInt 1)];
   OInst "Parallelizer" [("splitter", HRef 1); ("core_mapper_spec", HRef 2); ("core_aggregator_spec", HRef 3); ("info_mapper_aggregator", HInt 0)];
   OInst "Parallelizer" [("splitter", HRef 0); ("core_mapper_spec", HRef 2); ("core_aggregator_spec", HRef 3); ("info_mapper_aggregator", HInt 1)];
   OList [HRef 4; HRef 5];
   OInst "ParallelizabilityInfo" [("parallelizer_list", HRef 6); ("round_robin_compatible_with_cat", HInt 0); ("is_commutative", HInt 1)]].
Lemma infer_heap_leaf l o : nth_error infer_heap l = Some o -> (forall v, In v (slots o) -> forall k, v <> HRef k) ->
  forall k, reaches infer_heap (HRef l) k -> k = l.
Proof.
  intros E N k R. inversion R as [|l' o' v k' E' I R']; subst; [reflexivity|]. rewrite E in E'. injection E' as <-.
  inversion R'; subst; exfalso; eapply N; eauto.
Qed.
Lemma infer_heap_reaches p k : In p [4; 5] -> reaches infer_heap (HRef p) k -> k = p \/ k <= 3.
Proof.
  assert (Leaf : forall l, l <= 3 -> forall k, reaches infer_heap (HRef l) k -> k = l).
  { intros l L. do 4 (destruct l as [|l]; [eapply infer_heap_leaf; [reflexivity|]; cbn; intros v J; decompose [or] J; subst; try discriminate; contradiction|]). lia. }
  intros I R. inversion R as [|l' o v k' E J R']; subst; [now left|]. right.
  cbn in I. destruct I as [<-|[<-|[]]]; injection E as <-; cbn in J; decompose [or] J; subst; try contradiction;
    first [apply Leaf in R'; lia|inversion R'].
Qed.
Example C93_case_ok : info_ok infer_heap (HRef 7) true 6 [HRef 4; HRef 5].
Proof.
  assert (Gr : forall l, l <= 3 -> grounded infer_heap (HRef l)).
  { intros l L. do 4 (destruct l as [|l]; [eapply gr_object; [reflexivity|]; cbn; intros v J; decompose [or] J; subst; try contradiction; constructor; discriminate|]). lia. }
  assert (Own : forall p, In p [4; 5] -> own_value infer_heap 6 (HRef p)).
  { intros p I. split; [cbn in *; lia|]. split; [|split].
    - cbn in I. destruct I as [<-|[<-|[]]]; (eapply gr_object; [reflexivity|]); cbn; intros v J; decompose [or] J; subst; try contradiction;
        first [apply Gr; lia|constructor; discriminate].
    - intros (l & c & at_ & R & E & J). pose proof (infer_heap_reaches p l I R) as B. assert (L : l <= 5) by (cbn in I; lia).
      do 6 (destruct l as [|l]; [cbn in E; injection E as <- <-; cbn in J; decompose [or] J; try discriminate; contradiction|]). lia.
    - intros R. apply (infer_heap_reaches p 6 I) in R. cbn in I. lia. }
  split; [|split; [|split; [|split; [reflexivity|]]]].
  - intros o H. cbn in H. repeat (destruct H as [<-|H]; [cbn; repeat constructor; cbn; lia|]). destruct H.
  - intros o H. cbn in H. repeat (destruct H as [<-|H]; [first [exact I|cbn; repeat constructor; cbn; intuition discriminate]|]). destruct H.
  - exists 7. eexists. repeat (split; [reflexivity|]). reflexivity.
  - constructor; [|constructor; [|constructor]]; (split; [apply Own; cbn; tauto|]).
    + exists ROUND_ROBIN_PLAIN, 4. eexists. exists (HRef 1). repeat (split; [reflexivity|]). exists 1. auto.
    + exists CONSEC_CHUNKS, 5. eexists. exists (HRef 0). repeat (split; [reflexivity|]). exists 0. auto.
Qed.
(** One is added, at 8, with a splitter of its own, at 12; 9 is the copy of the other splitter. *)
Example C93_case : exists h', infers infer_heap (HRef 7) h' (HRef 6) /\
  nth_error h' 6 = Some (OList [HRef 4; HRef 5; HRef 8]) /\
  nth_error h' 8 = Some (OInst "Parallelizer" [("splitter", HRef 12); ("core_mapper_spec", HRef 10); ("core_aggregator_spec", HRef 11); ("info_mapper_aggregator", HInt 1)]) /\
  nth_error h' 12 = Some (OInst "Splitter" [("kind", HSplit ROUND_ROBIN_UNWRAP_FLAG)]).
Proof.
  destruct (C93_inferred _ _ _ _ _ C93_case_ok) as (h' & sel & qs & R & _). exists h'. split; [exact R|].
  destruct R as (n & R). specialize (R (n + 5) ltac:(lia)). rewrite Nat.add_comm in R. vm_compute in R. injection R as <-.
  repeat split; reflexivity.
Qed.
(** Asking again: the list now has the parallelizer twice. *)
Example C93_again_case : exists h1 h2, infers infer_heap (HRef 7) h1 (HRef 6) /\ infers h1 (HRef 7) h2 (HRef 6) /\
  nth_error h2 6 = Some (OList [HRef 4; HRef 5; HRef 8; HRef 13]) /\ equal h2 (HRef 8) (HRef 13).
Proof.
  destruct (C93_inferred _ _ _ _ _ C93_case_ok) as (h1 & sel & qs & R & _). exists h1.
  destruct (C93_again _ _ _ _ _ _ _ C93_case_ok R) as (_ & qs' & _ & OK1).
  destruct (C93_inferred _ _ _ _ _ OK1) as (h2 & sel2 & qs2 & R2 & _). exists h2. split; [exact R|]. split; [exact R2|].
  destruct R as (n & R). specialize (R (n + 5) ltac:(lia)). rewrite Nat.add_comm in R. vm_compute in R. injection R as <-.
  destruct R2 as (m & R2). specialize (R2 (m + 6) ltac:(lia)). rewrite Nat.add_comm in R2. vm_compute in R2. injection R2 as <-.
  split; [reflexivity|]. exists 9. vm_compute. reflexivity.
Qed.
(** The same information as a value meets the hypotheses of C93_kinds. *)
Example C93_kinds_case :
  let p k n := mkPar k (mkMapperSpec SAME_AS_SEQ None TSeq true) make_aggregator_spec_concatenate NO_ADD_INPUT n in
  let i := mkPI [p ROUND_ROBIN_PLAIN 0; p CONSEC_CHUNKS 1] false true in
  is_commutative i = true /\ Forall2 (fun q o => splits_by infer_heap (p_splitter q) o) (parallelizer_list i) [HRef 4; HRef 5] /\
  inferring i [p ROUND_ROBIN_PLAIN 0; p CONSEC_CHUNKS 1; p ROUND_ROBIN_UNWRAP_FLAG 1]
    (mkPI [p ROUND_ROBIN_PLAIN 0; p CONSEC_CHUNKS 1; p ROUND_ROBIN_UNWRAP_FLAG 1] false true).
Proof.
  cbv zeta. split; [reflexivity|]. split; [|match goal with |- inferring ?i _ _ => exact (inferring_spec i) end].
  constructor; [|constructor; [|constructor]].
  - exists 4. eexists. exists (HRef 1). repeat (split; [reflexivity|]). exists 1. auto.
  - exists 5. eexists. exists (HRef 0). repeat (split; [reflexivity|]). exists 0. auto.
Qed.
