(** * C84: the texts of invocations with variables *)
From Coq Require Import ZArith DecimalString Lia.
Require Import Verif.PyBase Verif.Access Verif.IOInfo Verif.IOVars Verif.Transformers Verif.ParaTypes Verif.Text Verif.Heap Verif.HeapEq Verif.HeapText
  Verif.SpecHeap Verif.SpecHeapEq Verif.SpecText Verif.SpecHeapText Verif.HeapFacts Verif.HeapCopy Verif.HeapEqFacts Verif.HeapEqProps
  Verif.TextFacts Verif.HeapTextFacts Verif.HeapTextFacts2 Verif.P_Heap Verif.P_HeapEq.

(** [str] and [repr] give the text that is specified. *)
Theorem C84_exact : forall address h q v t, known h v ->
  (prints address h q v t <-> exists n, py_text address n h q v = Some t).
Proof. intros address h q v t K. split; [apply prints_text|]. intros (n & T). eapply text_prints; eauto. Qed.
Print Assumptions C84_exact.

(** There is exactly one text for objects that do not contain themselves. *)
Theorem C84_one_text : forall address h q v, known h v -> grounded h v ->
  exists t, prints address h q v t /\ forall u, prints address h q v u -> u = t.
Proof.
  intros address h q v K G. destruct (text_ends address h v G q) as (n & t & T). apply text_prints in T; [|exact K].
  exists t. split; [exact T|]. intros u U. eapply prints_unique; eauto.
Qed.
Print Assumptions C84_one_text.

(** What others do with other objects does not change the text. *)
Theorem C84_unchanged : forall address h h' q v t, unchanged h h' -> closed h -> valid h v -> grounded h v -> known h v ->
  (prints address h' q v t <-> prints address h q v t).
Proof.
  intros address h h' q v t U C V G K. rewrite !C84_exact by (try exact K; eapply known_unchanged; eauto).
  split; intros (n & T); exists n; [rewrite <- (text_unchanged address h h' v U G n q)|rewrite (text_unchanged address h h' v U G n q)]; exact T.
Qed.
Print Assumptions C84_unchanged.

(** ** Copies *)
Lemma unchanged_length h h' : unchanged h h' -> length h <= length h'.
Proof.
  intros U. destruct (Nat.le_gt_cases (length h) (length h')) as [L|L]; [exact L|]. exfalso. specialize (U _ L).
  rewrite (proj2 (nth_error_None h' (length h'))) in U by lia. symmetry in U. apply nth_error_None in U. lia.
Qed.
Lemma reached_copied h h' m : (forall l l', memo_get m l = Some l' -> done h h' m l l' /\ length h <= l') ->
  forall v l, reaches h v l -> forall w, val_rel m v w -> exists l', memo_get m l = Some l'.
Proof.
  intros D v l R. induction R as [a L|a o v x E I R IH]; intros w V; cbn in V; destruct (memo_get m a) as [a'|] eqn:M; try contradiction; eauto.
  destruct (D _ _ M) as ((o' & vs & A & B & F) & _). rewrite E in A. injection A as <-.
  assert (exists u, val_rel m v u) as (u & Ru).
  { clear -F I. induction F as [|x y l l' R F IH]; [destruct I|]. destruct I as [<-|I]; eauto. }
  eauto.
Qed.
(** A deep copy prints the same text exactly if nothing in it prints its place only. *)
Theorem C84_copy_iff : forall address h v h' w q, closed h -> valid h v -> grounded h v -> known h v -> places address h' ->
  deepcopy v h = (h', Ok w) ->
  exists t u, prints address h' q v t /\ prints address h' q w u /\ (t = u <-> ~ reaches_hidden h v).
Proof.
  intros address h v h' w q C V G K (P1 & P2) E.
  destruct (deepcopy_fresh h v C V) as (h1 & m & w1 & E1 & U & R & D). rewrite E in E1. injection E1 as <- <-.
  destruct (text_ends address h v G q) as (n & t & T). destruct (text_ends (moved address m) h v G q) as (n' & u & T').
  assert (B : n <= n + n') by lia. assert (B' : n' <= n + n') by lia.
  apply (text_more _ _ _ _ _ _ _ B) in T. apply (text_more _ _ _ _ _ _ _ B') in T'. clear B B'. set (k := n + n') in *.
  assert (KW : known h' w).
  { intros l c attrs RW X. destruct (known_copy h h' m D w l RW v R) as (y & o & vs & RY & EY & EX). rewrite X in EX.
    destruct o as [|es|c0 at0]; try discriminate EX. injection EX as -> _. eapply K; eauto. }
  exists t, u. split; [|split].
  - eapply text_prints; [eapply known_unchanged; eauto|]. rewrite (text_unchanged address h h' v U G). exact T.
  - eapply text_prints; [exact KW|]. rewrite (copy_text address h h' m D v G w k q R). exact T'.
  - split.
    + intros ->. refine (proj2 (two_places address (moved address m) h v G _ k q u u T T' "" "" eq_refl)).
      intros l c attrs full RL X I. destruct (reached_copied h h' m D v l RL w R) as (l' & M). unfold moved. rewrite M.
      destruct (D _ _ M) as ((o' & vs & _ & Y & _) & L). assert (l < length h) by (apply nth_error_Some; congruence).
      assert (l' < length h') by (apply nth_error_Some; congruence). pose proof (unchanged_length _ _ U).
      split; [|split; apply P2; lia]. intros EA. apply P1 in EA; lia.
    + intros N. pose proof (same_places address (moved address m) h v G N k q) as S. congruence.
Qed.
Print Assumptions C84_copy_iff.

(** ** Objects that are alike print the same text. *)
Lemma alike_text address h : forall n q v w, alike h v w -> py_text address n h q v = py_text address n h q w.
Proof.
  induction n as [|n IH]; intros q v w A; destruct A as [v|a b l l' X Y F|a b l l' X Y F|a b c l l' full X Y I F]; try reflexivity.
  - rewrite (list_step _ _ _ _ _ _ X), (list_step _ _ _ _ _ _ Y).
    replace (map (py_text address n h true) l') with (map (py_text address n h true) l); [reflexivity|].
    clear X Y. induction F as [|x y l l' A F IHF]; [reflexivity|]. cbn [map]. now rewrite IHF, (IH true x y A).
  - rewrite (dict_step _ _ _ _ _ _ X), (dict_step _ _ _ _ _ _ Y).
    assert (E : map fst l = map fst l' /\ map (fun p => py_text address n h true (snd p)) l = map (fun p => py_text address n h true (snd p)) l').
    { clear X Y. induction F as [|x y l l' (A & B) F (I1 & I2)]; [auto|]. cbn [map]. now rewrite I1, I2, A, (IH true _ _ B). }
    destruct E as (-> & ->). reflexivity.
  - rewrite (inst_step _ _ _ _ _ _ _ X), (inst_step _ _ _ _ _ _ _ Y). destruct (class_facts _ _ _ I) as (_ & ->). cbn [negb].
    assert (E : map fst l = map fst l' /\ map (fun p => py_text address n h false (snd p)) l = map (fun p => py_text address n h false (snd p)) l').
    { clear X Y. induction F as [|x y l l' (A & B) F (I1 & I2)]; [auto|]. cbn [map]. now rewrite I1, I2, A, (IH false _ _ B). }
    destruct E as (-> & ->). reflexivity.
Qed.
Theorem C84_alike : forall address h q v w t, known h v -> known h w -> alike h v w ->
  (prints address h q v t <-> prints address h q w t).
Proof.
  intros address h q v w t K L A. rewrite !C84_exact by assumption.
  split; intros (n & T); exists n; [rewrite <- (alike_text address h n q v w A)|rewrite (alike_text address h n q v w A)]; exact T.
Qed.
Print Assumptions C84_alike.

(** ** The text of an invocation tells everything about it, including the order of the access map. *)
Theorem C84_invocations_iff : forall address address' h h' q q' x y cls cls' k k' c d es es' t u,
  set_in_order h -> set_in_order h' -> has_kind h x cls k -> has_kind h' y cls' k' ->
  views_invocation h x c -> views_invocation h' y d -> access_entries h x cls es -> access_entries h' y cls' es' ->
  civ_one_line c -> civ_one_line d ->
  Forall (fun f => forall n p, f <> FOptVar n p) (v_flags c) -> Forall (fun f => forall n p, f <> FOptVar n p) (v_flags d) ->
  prints address h q x t -> prints address' h' q' y u ->
  (t = u <-> cls = cls' /\ k = k' /\ v_cmd c = v_cmd d /\ v_flags c = v_flags d /\ v_ops c = v_ops d /\
             v_in c = v_in d /\ v_out c = v_out d /\ es = es').
Proof.
  intros address address' h h' q q' x y cls cls' k k' c d es es' t u O O' K K' V V' A A' C D P Q T T'.
  apply prints_text in T as (n & T). apply prints_text in T' as (n' & T').
  pose proof (invocation_text address h O x cls k c es 0 q K V A P) as S. pose proof (invocation_text address' h' O' y cls' k' d es' 0 q' K' V' A' Q) as S'.
  rewrite (text_unique _ _ _ _ _ _ _ _ T S), (text_unique _ _ _ _ _ _ _ _ T' S'). clear T T' S S'. split.
  - intros E. destruct K as (_ & K), K' as (_ & K'). apply inv_code in E as (-> & -> & (E1 & E2 & E3 & E4 & E5) & ->); auto 10;
      [destruct k as [k|]; [now destruct K|exact K]|destruct k' as [k'|]; [now destruct K'|exact K']].
  - intros (-> & -> & E1 & E2 & E3 & E4 & E5 & ->). unfold inv_text. now rewrite E1, E2, E3, E4, E5.
Qed.
Print Assumptions C84_invocations_iff.

(** ** Refuted: the text of an object with options that name variables is the same whatever
    the option is and names. *)
Theorem C84_hidden : forall address h h' l c attrs attrs' full, In (c, false, full) classes ->
  nth_error h l = Some (OInst c attrs) -> nth_error h' l = Some (OInst c attrs') ->
  (forall x, x <> l -> nth_error h' x = nth_error h x) ->
  forall n q v, py_text address n h' q v = py_text address n h q v.
Proof.
  intros address h h' l c attrs attrs' full I X X' S. apply class_facts in I as (_ & W). cbn [negb] in W.
  induction n as [|n IH]; intros q v; [now destruct v|]. destruct v as [| | | | | | |a]; try reflexivity.
  destruct (Nat.eq_dec a l) as [->|N].
  - rewrite (inst_step _ _ _ _ _ _ _ X), (inst_step _ _ _ _ _ _ _ X'). now rewrite W.
  - destruct (nth_error h a) as [[vs|es|c0 at0]|] eqn:Y; pose proof Y as Y'; rewrite <- (S a N) in Y'.
    + rewrite (list_step _ _ _ _ _ _ Y), (list_step _ _ _ _ _ _ Y'). now rewrite (map_ext _ _ (IH true)).
    + rewrite (dict_step _ _ _ _ _ _ Y), (dict_step _ _ _ _ _ _ Y'). now rewrite (map_ext _ _ (fun p => IH true (snd p))).
    + rewrite (inst_step _ _ _ _ _ _ _ Y), (inst_step _ _ _ _ _ _ _ Y'). now rewrite (map_ext _ _ (fun p => IH false (snd p))).
    + cbn [py_text]. now rewrite Y, Y'.
Qed.
Print Assumptions C84_hidden.

(** ** Cases *)
Definition hex (l : loc) : string := "0x7f" +++ decimal_nat l.
Lemma known_all h : (forall c attrs, In (OInst c attrs) h -> exists b full, In (c, b, full) classes) -> forall v, known h v.
Proof. intros H v l c attrs _ X. apply nth_error_In in X. eauto. Qed.
Lemma known_checked h :
  forallb (fun o => match o with OInst c _ => existsb (fun p => String.eqb (fst (fst p)) c) classes | _ => true end) h = true -> forall v, known h v.
Proof.
  intros H. apply known_all. intros c attrs I. rewrite forallb_forall in H. apply H in I. apply existsb_exists in I as (((c' & b) & full) & I & E).
  apply String.eqb_eq in E. cbn in E. subst c'. eauto.
Qed.
Lemma eq_heap_known v : known eq_heap v.
Proof.
  apply known_all. intros c attrs H. cbn in H.
  repeat (destruct H as [E|H]; [first [discriminate E|injection E as <- <-; eexists _, _; cbn; tauto]|]). destruct H.
Qed.
Definition lf : string := one_newline.
Definition tb : string := String "009" "".
Example C84_text : prints hex eq_heap false (HRef 6)
  ("<class 'pash_annotations.datatypes.CommandInvocationWithIOVars.CommandInvocationWithIOVars'>: " +++ lf +++
   tb +++ " cmd_name: sort" +++ lf +++
   tb +++ " flag_option_list: [<class 'pash_annotations.datatypes.BasicDatatypes.Flag'>: " +++ lf +++ tb +++ " flag_name: -n" +++ lf +++ "]" +++ lf +++
   tb +++ " operand_list: [0]" +++ lf +++
   tb +++ " implicit_use_of_streaming_input: None" +++ lf +++
   tb +++ " implicit_use_of_streaming_output: 1" +++ lf +++
   tb +++ " access_map: {0: <class 'pash_annotations.datatypes.AccessKind.AccessKind'>: " +++ lf +++ tb +++ " kind: AccessKindEnum.STREAM_INPUT" +++ lf +++
   ", 1: <class 'pash_annotations.datatypes.AccessKind.AccessKind'>: " +++ lf +++ tb +++ " kind: AccessKindEnum.STREAM_OUTPUT" +++ lf +++ "}" +++ lf).
Proof. apply (text_prints hex eq_heap 5); [apply eq_heap_known|]. vm_compute. reflexivity. Qed.

(** Refuted: equal invocations print the same text. *)
Theorem C84_equal_refuted : exists t u, equal eq_heap (HRef 6) (HRef 15) /\
  prints hex eq_heap false (HRef 6) t /\ prints hex eq_heap false (HRef 15) u /\ t <> u.
Proof.
  eexists _, _. split; [exists 3; reflexivity|]. split; [|split].
  - eapply (text_prints hex eq_heap 5); [apply eq_heap_known|]. vm_compute. reflexivity.
  - eapply (text_prints hex eq_heap 5); [apply eq_heap_known|]. vm_compute. reflexivity.
  - vm_compute. discriminate.
Qed.
Print Assumptions C84_equal_refuted.

(** Refuted: invocations with different options print different texts; the text of a copy is
    that of the original. *)
Definition other_option : heap :=
  firstn 16 eq_heap ++ [OInst "OptionWithIOVar" [("option_name", HStr "-t"); ("option_arg", HInt 5)]] ++ skipn 17 eq_heap.
Theorem C84_options_refuted :
  (exists t c d, prints hex eq_heap false (HRef 18) t /\ prints hex other_option false (HRef 18) t /\
     views_invocation eq_heap (HRef 18) c /\ views_invocation other_option (HRef 18) d /\ v_flags c <> v_flags d) /\
  exists h' t u, deepcopy (HRef 18) eq_heap = (h', Ok (HRef 20)) /\
    prints hex h' false (HRef 18) t /\ prints hex h' false (HRef 20) u /\ t <> u.
Proof.
  assert (D : forall h, view_access h (HRef 1) = Some STREAM_OUTPUT -> view_access h (HRef 0) = Some STREAM_INPUT ->
     forall k, match assoc_z [(1%Z, HRef 1); (0%Z, HRef 0)] k with
     | Some v => exists acc, view_access h v = Some acc /\ v_acc example_civ k = Some acc
     | None => v_acc example_civ k = None end).
  { intros h A B k. cbn [assoc_z v_acc example_civ]. unfold am_set, am_empty. rewrite !(Z.eqb_sym k).
    destruct (Z.eqb_spec 1 k) as [<-|]; [eexists; split; [exact A|reflexivity]|]. destruct (Z.eqb 0 k); [eexists; split; [exact B|reflexivity]|reflexivity]. }
  split.
  - eexists _, (mkCiv "sort" [FOptVar "-k" (PArg "1")] [PVar 0] PNone (PVar 1) (v_acc example_civ)),
      (mkCiv "sort" [FOptVar "-t" (PVar 5)] [PVar 0] PNone (PVar 1) (v_acc example_civ)).
    split; [eapply (text_prints hex eq_heap 5); [apply eq_heap_known|]; vm_compute; reflexivity|].
    split; [eapply (text_prints hex other_option 5); [apply known_checked; reflexivity|]; vm_compute; reflexivity|].
    split; [|split; [|discriminate]].
    all: eexists 18, _, _, _, _, _, _, _; split; [reflexivity|]; split; [reflexivity|]; split; [left; reflexivity|];
      split; [reflexivity|]; split; [reflexivity|];
      split; [eexists _, _; split; [reflexivity|]; split; [reflexivity|]; repeat constructor|];
      split; [reflexivity|]; split; [eexists _, _; split; [reflexivity|]; split; [reflexivity|]; repeat constructor|];
      do 4 (split; [reflexivity|]); split; [reflexivity|]; eexists _, _; split; [reflexivity|]; split; [reflexivity|apply D; reflexivity].
  - eexists _, _, _. split; [vm_compute; reflexivity|]. split; [|split].
    + eapply (text_prints hex _ 5); [apply known_checked; reflexivity|]. vm_compute. reflexivity.
    + eapply (text_prints hex _ 5); [apply known_checked; reflexivity|]. vm_compute. reflexivity.
    + vm_compute. discriminate.
Qed.
Print Assumptions C84_options_refuted.

Lemma hex_places h : places hex h.
Proof.
  split.
  - intros a b _ _ E. unfold hex in E. apply sapp_inv, decimal_inj in E. lia.
  - intros a _. unfold hex. cbn. do 4 (split; [discriminate|]). pose proof (decimal_chars (Z.of_nat a)) as H. unfold decimal_nat.
    induction (decimal (Z.of_nat a)) as [|c s IH]; cbn in *; [exact Logic.I|]. destruct H as (H & H'). split; [|now apply IH].
    intros ->. unfold numeral in H. cbn in H. intuition discriminate.
Qed.
Lemma in_order_checked h : forallb (fun o => match o with
    | OInst c attrs => (match attributes c with Some ns => if list_eq_dec string_dec (map fst attrs) ns then true else false | None => true end) &&
        (if String.eqb c "Aggregator" then if list_eq_dec string_dec (map fst attrs) ("kind" :: invocation_attributes) then true else false else true)
    | _ => true end) h = true -> set_in_order h.
Proof.
  intros H cls attrs I. rewrite forallb_forall in H. apply H in I. cbn beta iota in I. apply andb_prop in I as (A & B). split.
  - intros ns E. rewrite E in A. now destruct (list_eq_dec string_dec (map fst attrs) ns).
  - intros ->. cbn in B. destruct (list_eq_dec string_dec (map fst attrs) ("kind" :: invocation_attributes)) as [E|]; [exact E|discriminate].
Qed.
(** The hypotheses hold for an invocation, the mapper and the aggregator made from it. *)
Example C84_case : forall dir, exists h1 h2 m a,
  get_mapper_h (mkHMapperSpec SAME_AS_SEQ None HTSeq true) (HRef 6) 20 21 (HRef 7) eq_heap = (h1, Ok (Some m)) /\
  get_aggregator_h dir (HAggTransformer CUSTOM_N_ARY (HTAdd (HRef 9)) true) (HRef 6) (HRef 10) 30 h1 = (h2, Ok (Some a)) /\
  set_in_order h2 /\ known h2 m /\ known h2 a /\ has_kind h2 m "Mapper" None /\ has_kind h2 a "Aggregator" (Some CUSTOM_N_ARY) /\
  access_entries h2 m "Mapper" [(20%Z, STREAM_INPUT); (21%Z, STREAM_OUTPUT)] /\
  access_entries h2 a "Aggregator" [(10%Z, STREAM_INPUT); (11%Z, STREAM_INPUT); (30%Z, STREAM_OUTPUT)].
Proof.
  intros dir. eexists _, _, _, _. split; [vm_compute; reflexivity|]. split; [vm_compute; reflexivity|].
  split; [apply in_order_checked; vm_compute; reflexivity|].
  split; [apply known_checked; vm_compute; reflexivity|]. split; [apply known_checked; vm_compute; reflexivity|].
  split; [split; [eexists _, _; split; reflexivity|cbn; auto]|]. split; [split; [eexists _, _; split; reflexivity|split; reflexivity]|].
  split; eexists _, _; (split; [reflexivity|]); (split; [reflexivity|]); repeat constructor.
Qed.
(** The two equal invocations tell their access maps apart, whatever the places are. *)
Example C84_invocations_case : forall address q q' t u,
  prints address eq_heap q (HRef 6) t -> prints address eq_heap q' (HRef 15) u -> t <> u.
Proof.
  intros address q q' t u T U E. destruct C65_case as (_ & _ & K & K' & V & V' & _).
  assert (O : set_in_order eq_heap) by (apply in_order_checked; vm_compute; reflexivity).
  assert (L : civ_one_line example_civ) by (repeat split; repeat constructor; discriminate).
  assert (P : Forall (fun f => forall n p, f <> FOptVar n p) (v_flags example_civ)) by (repeat constructor; discriminate).
  eapply (C84_invocations_iff address address eq_heap eq_heap q q' (HRef 6) (HRef 15) _ _ None None _ _
    [(0%Z, STREAM_INPUT); (1%Z, STREAM_OUTPUT)] [(1%Z, STREAM_OUTPUT); (0%Z, STREAM_INPUT)]) in E.
  - destruct E as (_ & _ & _ & _ & _ & _ & _ & E). discriminate.
  - exact O.
  - exact O.
  - split; [exact K|left; reflexivity].
  - split; [exact K'|left; reflexivity].
  - exact V.
  - exact V'.
  - eexists _, _. split; [reflexivity|]. split; [reflexivity|]. repeat constructor.
  - eexists _, _. split; [reflexivity|]. split; [reflexivity|]. repeat constructor.
  - exact L.
  - exact L.
  - exact P.
  - exact P.
  - exact T.
  - exact U.
Qed.
Example C84_copy_case : closed eq_heap /\ (forall x, In x [6; 18] -> valid eq_heap (HRef x) /\ grounded eq_heap (HRef x) /\ known eq_heap (HRef x)) /\
  (forall h, places hex h) /\ reaches_hidden eq_heap (HRef 18) /\ alike eq_heap (HRef 3) (HRef 13).
Proof.
  split; [exact eq_heap_closed|]. split.
  { intros x I. split; [destruct I as [<-|[<-|[]]]; cbn; lia|]. split; [apply eq_heap_grounded; destruct I as [<-|[<-|[]]]; cbn; tauto|apply eq_heap_known]. }
  split; [exact hex_places|]. split.
  - exists 16. eexists _, _, _. split; [|split; [reflexivity|cbn; tauto]].
    eapply reaches_slot; [reflexivity|right; left; reflexivity|]. eapply reaches_slot; [reflexivity|left; reflexivity|]. constructor. cbn; lia.
  - eapply alike_list; [reflexivity|reflexivity|]. constructor; [|constructor].
    eapply alike_instance; [reflexivity|reflexivity|do 3 right; left; reflexivity|]. constructor; [|constructor]. split; [reflexivity|constructor].
Qed.
