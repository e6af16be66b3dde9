(** * C98: the parallelizers that the helpers make are objects of their own *)
From Coq Require Import Lia ZArith.
Require Import Verif.PyBase Verif.Transformers Verif.ParaTypes Verif.ParaGen Verif.GenHelpers Verif.Heap Verif.HeapEq Verif.HeapInfer Verif.HeapPara Verif.SpecLists Verif.SpecHeap Verif.SpecHeapEq Verif.SpecPara Verif.SpecInfer Verif.SpecHeapPara
  Verif.HeapFacts Verif.HeapSep Verif.HeapEqFacts Verif.HeapEqProps Verif.P_Heap Verif.ApplyFacts Verif.P_Apply Verif.InferFacts Verif.P_Infer Verif.HeapParaFacts.

Lemma g_ok h0 h i qs : gstate h0 h i qs -> info_ok h (HRef (S (length h0))) (is_commutative i) (length h0) qs.
Proof.
  intros G. split; [apply G|]. split; [apply G|]. split; [|split; [apply G|]].
  - exists (S (length h0)). eexists. split; [reflexivity|]. split; [apply G|]. split; reflexivity.
  - apply Forall_forall. intros q I. split; [apply (g_new _ _ _ _ G q I)|].
    pose proof (g_is _ _ _ _ G) as F. clear -F I. induction F as [|r p l l' X F IH]; [contradiction|]. destruct I as [->|I]; [|auto].
    exists (p_splitter p). now apply parallelizer_splits.
Qed.
Lemma g_reaches h0 h i qs l : gstate h0 h i qs -> reaches h (HRef (S (length h0))) l -> length h0 <= l.
Proof.
  intros G R. inversion R as [k B|k o v l' E I R']; subst; [lia|]. rewrite (g_info _ _ _ _ G) in E. injection E as <-.
  cbn in I. destruct I as [<-|[<-|[<-|[]]]]; [|inversion R'..].
  inversion R' as [k B|k o v l' E I R2]; subst; [lia|]. rewrite (g_list _ _ _ _ G) in E. injection E as <-. cbn in I.
  apply (g_new _ _ _ _ G v I) in R2. lia.
Qed.

(** A method that calls any helpers, in any order and number, returns an information that stands for
    what the model of values computes: a new list of parallelizers, each with the parts it should
    have.  No object there was before has changed or is part of it, and no two parallelizers of the
    list share an object. *)
Theorem C98_made : forall h ks, closed h -> proper h -> Forall library_call ks ->
  exists h' x la qs i, generate_para_h ks h = (h', Ok x) /\ call_helpers ks new_para_info = Ok i /\
    info_object h' x la i /\ info_ok h' x (is_commutative i) la qs /\ Forall2 (parallelizer_is h') qs (parallelizer_list i) /\
    unchanged h h' /\ (forall l, reaches h' x l -> length h <= l) /\ ForallOrdPairs (disjoint h') qs.
Proof.
  intros h ks C P F. destruct (generate_spec h ks C P F) as (h' & i & qs & R & V & G).
  exists h', (HRef (S (length h))), (length h), qs, i. split; [exact R|]. split; [exact V|].
  split; [exists (S (length h)); eexists; eexists; split; [reflexivity|]; split; [reflexivity|]; split; [reflexivity|apply G]|]. split; [now apply g_ok|].
  split; [apply G|]. split; [apply G|]. split; [|apply G]. intros l. eapply g_reaches; eauto.
Qed.
Print Assumptions C98_made.

(** Whoever is given one parallelizer of the list changes no other, nor the list, nor the
    information, nor anything there was before. *)
Theorem C98_independent : forall h ks h' x, closed h -> proper h -> Forall library_call ks -> generate_para_h ks h = (h', Ok x) ->
  exists la qs, nth_error h' la = Some (OList qs) /\ info_with_list h' x (existsb (fun k => match k with SetCommutative => true | _ => false end) ks) la /\
    forall i q h2 held, nth_error qs i = Some q -> client h' [q] h2 held ->
      unchanged h h2 /\ nth_error h2 la = nth_error h' la /\ (forall a, x = HRef a -> nth_error h2 a = nth_error h' a) /\
      forall j r l, nth_error qs j = Some r -> j <> i -> reaches h' r l -> nth_error h2 l = nth_error h' l.
Proof.
  intros h ks h' x C P F E. destruct (generate_spec h ks C P F) as (h1 & i & qs & R & V & G). rewrite R in E. injection E as <- <-.
  exists (length h), qs. split; [apply G|]. split.
  { assert (X : forall ks i i', Forall library_call ks -> call_helpers ks i = Ok i' ->
      is_commutative i' = is_commutative i || existsb (fun k => match k with SetCommutative => true | _ => false end) ks).
    { clear. induction ks as [|k ks IH]; intros i i' F V; [injection V as <-; now rewrite orb_false_r|].
      inversion F as [|? ? L F']; subst. cbn [call_helpers] in V. destruct (call_helper k i) as [i1|] eqn:K; [|discriminate]. rewrite (IH _ _ F' V). cbn [existsb].
      destruct k; [now destruct (L p)|..]; injection K as <-; cbn; try reflexivity. now rewrite orb_true_r. }
    pose proof (g_ok _ _ _ _ G) as (_ & _ & I & _). now rewrite (X ks new_para_info i F V) in I. }
  intros n q h2 held N Cl. pose proof (nth_error_In _ _ N) as I. destruct (g_new _ _ _ _ G q I) as ((Vq & _) & New). pose proof (g_length _ _ _ _ G) as L.
  assert (K : forall l, l < length h1 -> ~ reaches h1 q l -> nth_error h2 l = nth_error h1 l).
  { intros l Ll X. eapply held_confined; [apply G| |exact Cl|exact Ll|]; [now repeat constructor|]. intros r [<-|[]]. exact X. }
  assert (Low : forall l, l < length h + 2 -> nth_error h2 l = nth_error h1 l).
  { intros l Ll. apply K; [lia|]. intros X. apply New in X. lia. }
  split; [|split; [|split]].
  - intros l Ll. rewrite Low by lia. now apply (g_frame _ _ _ _ G).
  - apply Low. lia.
  - intros a X. injection X as <-. apply Low. lia.
  - intros j r l M Ne Rl. apply K; [eapply reaches_bound; eauto|]. intros X. pose proof (g_disjoint _ _ _ _ G) as D.
    clear -D N M Ne X Rl. revert n j N M Ne. induction D as [|y l' Fy D IH]; intros n j N M Ne; [destruct n; discriminate N|].
    rewrite Forall_forall in Fy. destruct n, j; cbn in N, M; try lia.
    + injection N as ->. apply nth_error_In in M. exact (Fy _ M _ X Rl).
    + injection M as ->. apply nth_error_In in N. exact (Fy _ N _ Rl X).
    + eapply IH; eauto.
Qed.
Print Assumptions C98_independent.

Lemma pairs_app (R : hval -> hval -> Prop) l l' : ForallOrdPairs R l -> ForallOrdPairs R l' -> (forall p q, In p l -> In q l' -> R p q) -> ForallOrdPairs R (l ++ l').
Proof.
  intros A B H. induction A as [|x l F A IH]; [exact B|]. cbn. constructor.
  - apply Forall_app. split; [exact F|]. apply Forall_forall. intros q I. apply H; [now left|exact I].
  - apply IH. intros p q I J. apply H; [now right|exact J].
Qed.
(** The parallelizers are still objects of their own when the inferred ones have been added. *)
Theorem C98_inferred : forall h ks h' x, closed h -> proper h -> Forall library_call ks -> generate_para_h ks h = (h', Ok x) ->
  exists h2 la qs, infers h' x h2 (HRef la) /\ nth_error h2 la = Some (OList qs) /\ ForallOrdPairs (disjoint h2) qs /\ unchanged h h2.
Proof.
  intros h ks h' x C P F E. destruct (generate_spec h ks C P F) as (h1 & i & qs & R & V & G). rewrite R in E. injection E as <- <-.
  pose proof (g_ok _ _ _ _ G) as OK. destruct (infers_spec _ _ _ _ _ OK) as (h2 & sel & rs & I & S).
  exists h2, (length h), (qs ++ rs). split; [exact I|]. split; [apply S|].
  assert (Old : forall q l, In q qs -> reaches h2 q l -> reaches h1 q l).
  { intros q l J X. eapply agree_reaches; [apply G|exact X|apply (g_new _ _ _ _ G q J)|eapply agree_old; eauto]. }
  split.
  - apply pairs_app; [|apply S|].
    + eapply pairs_impl; [apply (g_disjoint _ _ _ _ G)|]. intros p q Ip Iq D l A B. exact (D l (Old _ _ Ip A) (Old _ _ Iq B)).
    + intros p q Ip Iq l A B. apply (Old _ _ Ip), reaches_bound in A. apply (st_new _ _ _ _ _ _ _ _ S q Iq) in B. lia.
  - intros l Ll. pose proof (g_length _ _ _ _ G). rewrite (st_frame _ _ _ _ _ _ _ _ S) by lia. now apply (g_frame _ _ _ _ G).
Qed.
Print Assumptions C98_inferred.

(** Two informations share nothing, whether the same helpers are called or others. *)
Theorem C98_two : forall h ks ks' h1 x1 h2 x2, closed h -> proper h -> Forall library_call ks -> Forall library_call ks' ->
  generate_para_h ks h = (h1, Ok x1) -> generate_para_h ks' h1 = (h2, Ok x2) -> disjoint h2 x1 x2 /\ unchanged h1 h2.
Proof.
  intros h ks ks' h1 x1 h2 x2 C P F F' E1 E2. destruct (generate_spec h ks C P F) as (k1 & i & qs & R & _ & G). rewrite R in E1. injection E1 as <- <-.
  destruct (generate_spec k1 ks' (g_closed _ _ _ _ G) (g_proper _ _ _ _ G) F') as (k2 & i' & qs' & R' & _ & G'). rewrite R' in E2. injection E2 as <- <-.
  split; [|apply G']. intros l A B. apply (g_reaches _ _ _ _ _ G') in B.
  eapply (reaches_unchanged k1 k2) in A; [|apply G|apply G'|cbn; pose proof (g_length _ _ _ _ G); lia]. apply reaches_bound in A. lia.
Qed.
Print Assumptions C98_two.

(** Two helpers that use the default for the aggregator, and one that uses a function *)
Example C98_case_calls : Forall library_call [CcSeqConc; RrSeqConc; SetCommutative; CcSeqAdjf "sum" true].
Proof. repeat constructor; intros p; discriminate. Qed.
Example C98_case : exists h x, generate_para_h [CcSeqConc; RrSeqConc; SetCommutative; CcSeqAdjf "sum" true] [] = (h, Ok x) /\ length h = 18 /\
  nth_error h 0 = Some (OList [HRef 6; HRef 11; HRef 17]).
Proof. vm_compute. eauto. Qed.
