(** * C65: comparing objects *)
From Coq Require Import Lia ZArith.
Require Import Verif.PyBase Verif.JsonData Verif.Access Verif.IOInfo Verif.IOVars Verif.Transformers Verif.ParaTypes Verif.MapperAgg Verif.Heap Verif.HeapEq
  Verif.SpecHeap Verif.SpecHeapEq Verif.HeapFacts Verif.HeapCopy Verif.HeapEqFacts Verif.HeapEqProps Verif.P_Heap.

(** The comparison ends with a result, which says whether the values are equal. *)
Theorem C65_exact : forall h v w, proper h -> grounded h v ->
  (equal h v w \/ unequal h v w) /\ (equal h v w <-> same h v w) /\ (unequal h v w <-> ~ same h v w).
Proof.
  intros h v w P G. destruct (py_eq_ends h v G) as (n & T). destruct (T w) as (b & E).
  assert (A : equal h v w -> same h v w) by (intros (m & M); eapply py_eq_true; eauto).
  assert (B : unequal h v w -> ~ same h v w) by (intros (m & M); eapply py_eq_false; eauto).
  assert (X : equal h v w \/ unequal h v w) by (destruct b; [left|right]; now exists n).
  split; [exact X|]. intuition.
Qed.
Print Assumptions C65_exact.
(** With enough recursion the result does not depend on the bound. *)
Theorem C65_one_result : forall h v w n m b c, py_eq n h v w = Some b -> py_eq m h v w = Some c -> b = c.
Proof.
  intros h v w n m b c E F. destruct (Nat.le_ge_cases n m) as [L|L].
  - pose proof (py_eq_more h v w b n m L E). congruence.
  - pose proof (py_eq_more h v w c m n L F). congruence.
Qed.
Print Assumptions C65_one_result.
(** Equality is reflexive, symmetric and transitive. *)
Theorem C65_equivalence : forall h u v w, proper h -> grounded h u -> grounded h v ->
  equal h u u /\ (equal h u v -> equal h v u) /\ (equal h u v -> equal h v w -> equal h u w).
Proof.
  intros h u v w P GU GV. destruct (C65_exact h u u P GU) as (_ & A & _). destruct (C65_exact h u v P GU) as (_ & B & _).
  destruct (C65_exact h v u P GV) as (_ & B' & _). destruct (C65_exact h v w P GV) as (_ & C & _). destruct (C65_exact h u w P GU) as (_ & D & _).
  rewrite A, B, B', C, D. split; [constructor|]. split; [apply same_sym|]. intros X Y. eapply same_trans; eauto.
Qed.
Print Assumptions C65_equivalence.

(** A deep copy is equal to the original exactly if no object without [__eq__] is part of it. *)
Theorem C65_copy_iff : forall h v h' w, proper h -> closed h -> valid h v -> grounded h v -> deepcopy v h = (h', Ok w) ->
  (equal h' v w <-> ~ reaches_without_eq h v) /\ (unequal h' v w <-> reaches_without_eq h v).
Proof.
  intros h v h' w P C V G E. pose proof (deepcopy_proper h v h' w P E) as P'.
  destruct (deepcopy_fresh h v C V) as (h1 & m & w1 & E1 & U & R & D). rewrite E in E1. injection E1 as <- <-.
  pose proof (grounded_unchanged h h' v U G) as G'. destruct (C65_exact h' v w P' G') as (X & Y & Z).
  assert (Q : reaches_without_eq h v -> ~ same h' v w).
  { intros (l & c & at_ & Rl & El & I). exact (copy_not_same h h' m P U D v l Rl c at_ El I w R). }
  assert (Q' : ~ reaches_without_eq h v -> same h' v w).
  { intros N. exact (copy_same h h' m P U D v G N w R). }
  split.
  - rewrite Y. split; [|exact Q']. intros S N. now apply Q in N.
  - rewrite Z. split; [|exact Q]. intros N. clear - N Q' G C V.
    assert (Dec : reaches_without_eq h v \/ ~ reaches_without_eq h v).
    { clear -G. induction G as [v N|l o E G IH].
      - right. intros (l & c & at_ & R & _). inversion R; subst; eapply N; reflexivity.
      - assert (S : (exists v, In v (slots o) /\ reaches_without_eq h v) \/ forall v, In v (slots o) -> ~ reaches_without_eq h v).
        { clear -IH. induction (slots o) as [|v vs IHv]; [right; intros v []|].
          destruct (IH v (or_introl eq_refl)) as [Y|Nv]; [left; exists v; split; [now left|exact Y]|].
          destruct IHv as [(x & I & Y)|Nx]; [intros x I; apply IH; now right|left; exists x; split; [now right|exact Y]|].
          right. intros x [<-|I]; auto. }
        destruct S as [(v & I & (x & c & at_ & R & A & B))|S].
        + left. exists x, c, at_. split; [|auto]. eapply reaches_slot; eauto.
        + assert (O : (exists c at_, o = OInst c at_ /\ In c by_identity) \/ forall c at_, o = OInst c at_ -> ~ In c by_identity).
          { destruct o as [| |c at_]; [right; discriminate..|]. destruct (in_dec string_dec c by_identity) as [I|I]; [left; eauto|].
            right. intros c' at' [= <- <-]. exact I. }
          destruct O as [(c & at_ & -> & I)|O].
          * left. exists l, c, at_. split; [|auto]. constructor. apply nth_error_Some. congruence.
          * right. intros (x & c & at_ & R & A & B). inversion R as [? L|? o' v x' E' I R']; subst.
            -- rewrite E in A. injection A as ->. eapply O; eauto.
            -- rewrite E in E'. injection E' as <-. apply (S v I). exists x, c, at_. auto. }
    destruct Dec as [Y|Y]; [exact Y|]. exfalso. auto.
Qed.
Print Assumptions C65_copy_iff.

(** Equal invocations stand for the same: either may be used for the other. *)
Theorem C65_equal_stands_for : forall h x y c, proper h -> equal h x y -> views_invocation h x c -> views_invocation h y c.
Proof. intros h x y c P (n & E). apply same_invocation. eapply py_eq_true; eauto. Qed.
Print Assumptions C65_equal_stands_for.
(** Invocations or mappers without OptionWithIOVar are equal exactly if they have the same
    command name, flags and options, operands, implicit streams and accesses. *)
Theorem C65_invocations_iff : forall h x y cls c d,
  proper h -> as_constructed h -> grounded h x ->
  In cls ["CommandInvocationWithIOVars"; "Mapper"] -> class_is h x cls -> class_is h y cls ->
  views_invocation h x c -> views_invocation h y d -> (forall n a, ~ In (FOptVar n a) (v_flags c)) ->
  (equal h x y <-> same_civ c d).
Proof.
  intros h x y cls c d P AC G CL CX CY VX VY N. destruct (C65_exact h x y P G) as (_ & -> & _). split.
  - intros S. eapply invocation_fun; [eapply same_invocation; eauto|exact VY].
  - intros S. eapply invocations_equal; eauto.
Qed.
Print Assumptions C65_invocations_iff.

(** Objects of different classes are never equal: a mapper is not equal to the invocation it was made from. *)
Theorem C65_class : forall h x y cls cls' n, proper h -> class_is h x cls -> class_is h y cls' -> cls <> cls' ->
  py_eq n h x y <> Some true.
Proof.
  intros h x y cls cls' n P (a & at1 & -> & A) (b & at2 & -> & B) N E. apply (py_eq_true h P) in E.
  destruct (same_class h a b cls at1 E A) as (at3 & B' & _). rewrite B in B'. congruence.
Qed.
Print Assumptions C65_class.

(** ** Splitters
    Splitter has an equality of its own.  Between splitters it is the one of the other classes,
    two splitters are equal exactly if they are of the same kind; objects with kinds of another
    sort differ; comparing with anything else raises AttributeError, where the other classes say
    no. *)
Theorem C65_splitter : forall h x y k n, splitter_of h x k ->
  (forall k', splitter_of h y k' ->
     (splitter_eq n h x y = Some (Some true) <-> k = k') /\ (splitter_eq n h x y = Some (Some false) <-> k <> k') /\
     (equal h x y <-> k = k') /\ (unequal h x y <-> k <> k')) /\
  (other_kind h y -> splitter_eq n h x y = Some (Some false) /\ unequal h x y) /\
  (splitter_eq n h x y = None <-> kindless h y).
Proof.
  intros h x y k n (a & -> & A). assert (KX : kind_of h (HRef a) = Some (HSplit k)) by (cbn; now rewrite A). split; [|split].
  - intros k' (b & -> & B). assert (KY : kind_of h (HRef b) = Some (HSplit k')) by (cbn; now rewrite B).
    unfold splitter_eq. rewrite KX, KY.
    assert (E : py_eq n h (HSplit k) (HSplit k') = Some (is_same (HSplit k) (HSplit k'))) by now destruct n.
    assert (F : py_eq 1 h (HRef a) (HRef b) = Some (is_same (HSplit k) (HSplit k'))).
    { cbn. rewrite A, B. cbn. unfold eq_dict. cbn. destruct (is_same (HSplit k) (HSplit k')); reflexivity. }
    rewrite E. assert (S : is_same (HSplit k) (HSplit k') = true /\ k = k' \/ is_same (HSplit k) (HSplit k') = false /\ k <> k').
    { unfold is_same. destruct (hval_eq_dec (HSplit k) (HSplit k')) as [e|e]; [left|right]; (split; [reflexivity|congruence]). }
    assert (ONE : forall m b', py_eq m h (HRef a) (HRef b) = Some b' -> b' = is_same (HSplit k) (HSplit k')) by (intros m b' M; exact (C65_one_result _ _ _ _ _ _ _ M F)).
    destruct S as [(S & K)|(S & K)]; rewrite S in *.
    + repeat split; intros; try congruence; try (now exists 1); try contradiction. destruct H as (m & M). apply ONE in M. discriminate.
    + repeat split; intros; try congruence; try (now exists 1); try contradiction. destruct H as (m & M). apply ONE in M. discriminate.
  - intros (b & cls & attrs & v & -> & B & N & V & R & S). assert (KY : kind_of h (HRef b) = Some v) by (cbn; now rewrite B).
    unfold splitter_eq. rewrite KX, KY. assert (D : is_same (HSplit k) v = false) by (unfold is_same; destruct (hval_eq_dec (HSplit k) v) as [e|e]; [now destruct (S k)|reflexivity]).
    split; [destruct n; cbn; now rewrite D|]. exists 1. cbn [py_eq]. rewrite A, B. 
    assert (M : mem "Splitter" without_eq = false) by reflexivity. rewrite M. destruct (String.eqb_spec "Splitter" cls); [congruence|reflexivity].
  - unfold splitter_eq, kindless. rewrite KX. split.
    + intros H b cls attrs -> B. cbn in H. rewrite B in H. destruct (assoc_s attrs "kind"); [discriminate|reflexivity].
    + intros H. destruct (kind_of h y) as [v|] eqn:E; [|reflexivity]. exfalso. destruct y as [| | | | | | |b]; try discriminate E. cbn in E.
      destruct (nth_error h b) as [[| |cls attrs]|] eqn:B; try discriminate E. rewrite (H b cls attrs eq_refl B) in E. discriminate.
Qed.
Print Assumptions C65_splitter.
Example C65_splitter_case :
  let h := [OInst "Splitter" [("kind", HSplit CONSEC_CHUNKS)]; OInst "Splitter" [("kind", HSplit CONSEC_CHUNKS)];
            OInst "Splitter" [("kind", HSplit ROUND_ROBIN_PLAIN)]; OInst "AccessKind" [("kind", HAccess STREAM_INPUT)]; OInst "Flag" [("flag_name", HStr "-n")]] in
  equal h (HRef 0) (HRef 1) /\ unequal h (HRef 0) (HRef 2) /\ other_kind h (HRef 3) /\ splitter_eq 0 h (HRef 0) (HRef 3) = Some (Some false) /\
  splitter_eq 0 h (HRef 0) (HRef 4) = None /\ py_eq 1 h (HRef 4) (HRef 0) = Some false /\ splitter_eq 0 h (HRef 0) HNone = None.
Proof.
  cbv zeta. split; [exists 1; reflexivity|]. split; [exists 1; reflexivity|].
  split; [eexists _, _, _, _; repeat split; try reflexivity; discriminate|]. repeat split; reflexivity.
Qed.

(** ** Cases *)
(** Two invocations [sort -n], their accesses entered in different order, and [sort -k 1] *)
Definition eq_heap : heap :=
  example_heap ++
  [ODict [(1%Z, HRef 1); (0%Z, HRef 0)]; OInst "Flag" [("flag_name", HStr "-n")]; OList [HRef 12]; OList [HInt 0];
   OInst "CommandInvocationWithIOVars"
     [("cmd_name", HStr "sort"); ("flag_option_list", HRef 13); ("operand_list", HRef 14);
      ("implicit_use_of_streaming_input", HNone); ("implicit_use_of_streaming_output", HInt 1); ("access_map", HRef 11)];
   OInst "OptionWithIOVar" [("option_name", HStr "-k"); ("option_arg", HRef 19)]; OList [HRef 16];
   OInst "CommandInvocationWithIOVars"
     [("cmd_name", HStr "sort"); ("flag_option_list", HRef 17); ("operand_list", HRef 14);
      ("implicit_use_of_streaming_input", HNone); ("implicit_use_of_streaming_output", HInt 1); ("access_map", HRef 11)];
   OInst "ArgStringType" [("name", HStr "1")]].
Lemma eq_heap_proper : proper eq_heap.
Proof.
  intros o H. cbn in H. repeat (destruct H as [<-|H]; [first [exact I|cbn; repeat constructor; cbn; intuition discriminate]|]). destruct H.
Qed.
Lemma eq_heap_closed : closed eq_heap.
Proof. intros o H. cbn in H. repeat (destruct H as [<-|H]; [cbn; repeat constructor; cbn; lia|]). destruct H. Qed.
Lemma eq_heap_grounded x : In x [6; 15; 18] -> grounded eq_heap (HRef x).
Proof.
  assert (B : forall l, In l [0; 1; 2; 12; 19] -> grounded eq_heap (HRef l)).
  { intros l H. cbn in H. repeat (destruct H as [<-|H]; [eapply gr_object; [reflexivity|]; cbn; intros v J; repeat (destruct J as [<-|J]; [constructor; discriminate|]); destruct J|]). destruct H. }
  assert (B16 : grounded eq_heap (HRef 16)).
  { eapply gr_object; [reflexivity|]. intros v [<-|[<-|[]]]; [constructor; discriminate|apply B; cbn; tauto]. }
  assert (B' : forall l, In l [3; 4; 5; 11; 13; 14; 17] -> grounded eq_heap (HRef l)).
  { intros l H. cbn in H. repeat (destruct H as [<-|H]; [eapply gr_object; [reflexivity|]; cbn; intros v J; repeat (destruct J as [<-|J]; [first [constructor; discriminate|exact B16|apply B; cbn; tauto]|]); destruct J|]). destruct H. }
  intros H. cbn in H. repeat (destruct H as [<-|H]; [eapply gr_object; [reflexivity|]; cbn; intros v J; repeat (destruct J as [<-|J]; [first [constructor; discriminate|apply B'; cbn; tauto]|]); destruct J|]). destruct H.
Qed.
Lemma eq_heap_constructed : as_constructed eq_heap.
Proof.
  intros cls attrs names H. cbn in H. repeat (destruct H as [E|H]; [first [discriminate E|injection E as <- <-; cbn; intros [= <-]; cbn; tauto]|]). destruct H.
Qed.
Example C65_case : equal eq_heap (HRef 6) (HRef 15) /\ unequal eq_heap (HRef 6) (HRef 18) /\
  class_is eq_heap (HRef 6) "CommandInvocationWithIOVars" /\ class_is eq_heap (HRef 15) "CommandInvocationWithIOVars" /\
  views_invocation eq_heap (HRef 6) example_civ /\ views_invocation eq_heap (HRef 15) example_civ /\ ~ reaches_without_eq eq_heap (HRef 6).
Proof.
  assert (U : unchanged example_heap eq_heap).
  { intros l L. unfold eq_heap. now rewrite nth_error_app1. }
  split; [exists 3; reflexivity|]. split; [exists 3; reflexivity|]. split; [eexists _, _; split; reflexivity|]. split; [eexists _, _; split; reflexivity|].
  assert (V : views_invocation eq_heap (HRef 6) example_civ) by (eapply views_invocation_unchanged; [exact U|exact C48_case_views]).
  split; [exact V|]. split; [eapply C65_equal_stands_for; [exact eq_heap_proper| |exact V]; exists 3; reflexivity|].
  intros R. destruct (deepcopy (HRef 6) eq_heap) as (h' & [w|]) eqn:E.
  - eapply (C65_copy_iff eq_heap (HRef 6) h' w) in R; [|exact eq_heap_proper|exact eq_heap_closed|cbn; lia|apply eq_heap_grounded; cbn; tauto|exact E].
    destruct R as (n & R). vm_compute in E. injection E as <- <-. pose proof (C65_one_result _ _ _ n 3 false true R eq_refl). discriminate.
  - vm_compute in E. discriminate.
Qed.
(** Refuted: invocations with options that name variables are not equal to their copies, nor
    are the two mappers made from such an invocation by the same call. *)
Theorem C65_copy_refuted :
  (exists h', deepcopy (HRef 18) eq_heap = (h', Ok (HRef 20)) /\ unequal h' (HRef 18) (HRef 20) /\
     exists c, views_invocation h' (HRef 18) c /\ views_invocation h' (HRef 20) c) /\
  let s := mkHMapperSpec SAME_AS_SEQ None HTSeq true in
  exists h1 h2 m1 m2, get_mapper_h s (HRef 18) 0 1 (HRef 7) eq_heap = (h1, Ok (Some m1)) /\
    get_mapper_h s (HRef 18) 0 1 (HRef 7) h1 = (h2, Ok (Some m2)) /\ unequal h2 m1 m2.
Proof.
  assert (V : views_invocation eq_heap (HRef 18) (mkCiv "sort" [FOptVar "-k" (PArg "1")] [PVar 0] PNone (PVar 1) (v_acc example_civ))).
  { eexists 18, _, _, _, _, _, _, _. split; [reflexivity|]. split; [reflexivity|]. split; [left; reflexivity|].
    split; [reflexivity|]. split; [reflexivity|].
    split; [eexists _, _; split; [reflexivity|]; split; [reflexivity|]; repeat constructor|].
    split; [reflexivity|]. split; [eexists _, _; split; [reflexivity|]; split; [reflexivity|]; repeat constructor|].
    do 4 (split; [reflexivity|]). split; [reflexivity|]. eexists _, _. split; [reflexivity|]. split; [reflexivity|].
    intros k. cbn [assoc_z v_acc example_civ]. unfold am_set, am_empty. rewrite !(Z.eqb_sym k).
    destruct (Z.eqb_spec 1 k) as [<-|]; [eexists; split; reflexivity|]. destruct (Z.eqb 0 k); [eexists; split; reflexivity|reflexivity]. }
  split.
  - destruct (deepcopy_spec eq_heap (HRef 18) eq_heap_closed) as (h' & m & w & E & U & R & D); [cbn; lia|].
    exists h'. assert (w = HRef 20) as ->.
    { vm_compute in E. now injection E as _ <-. }
    split; [exact E|]. split; [|eexists; split; [eapply views_invocation_unchanged; [exact U|exact V]|eapply views_invocation_rel; [exact D|exact R|exact V]]].
    exists 3. vm_compute in E. injection E as <-. reflexivity.
  - cbv zeta. set (g := get_mapper_h (mkHMapperSpec SAME_AS_SEQ None HTSeq true) (HRef 18) 0 1 (HRef 7)).
    assert (X : exists m1 m2, snd (g eq_heap) = Ok (Some m1) /\ snd (g (fst (g eq_heap))) = Ok (Some m2) /\
      py_eq 3 (fst (g (fst (g eq_heap)))) m1 m2 = Some false).
    { eexists _, _. split; [vm_compute; reflexivity|]. split; vm_compute; reflexivity. }
    destruct X as (m1 & m2 & X1 & X2 & X). exists (fst (g eq_heap)), (fst (g (fst (g eq_heap)))), m1, m2.
    split; [rewrite <- X1; apply surjective_pairing|]. split; [rewrite <- X2; apply surjective_pairing|]. now exists 3.
Qed.
Print Assumptions C65_copy_refuted.
