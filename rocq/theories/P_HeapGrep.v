(** * C99: the parallelizers of grep are objects of their own *)
From Coq Require Import Lia ZArith.
Require Import Verif.PyBase Verif.JsonData Verif.Parser Verif.IOGen Verif.Transformers Verif.ParaTypes Verif.ParaGen Verif.GenHelpers Verif.Heap Verif.HeapInfer Verif.HeapPara Verif.HeapGrep Verif.SpecHeap Verif.SpecHeapEq Verif.SpecInfer Verif.SpecHeapPara
  Verif.HeapFacts Verif.P_Heap Verif.ApplyFacts Verif.InferFacts Verif.P_Infer Verif.HeapParaFacts Verif.P_HeapPara.

Lemma g_garbage h0 h i qs os : gstate h0 h i qs -> block (length h) os -> gstate h0 (h ++ os) i qs.
Proof.
  intros G B. pose proof (g_length _ _ _ _ G) as L0. pose proof (g_closed _ _ _ _ G) as C.
  assert (Old : unchanged h (h ++ os)) by (intros l X; now apply nth_error_app1).
  assert (Ll : length h <= length (h ++ os)) by (rewrite app_length; lia).
  assert (Keep : forall r, In r qs -> agree h (h ++ os) r) by (intros r I l R; apply Old; eapply reaches_bound; eauto).
  assert (Rold : forall r l, In r qs -> reaches (h ++ os) r l -> reaches h r l).
  { intros r l I R. eapply agree_reaches; [exact C|exact R|apply (g_new _ _ _ _ G r I)|now apply Keep]. }
  constructor.
  - now apply block_closed.
  - apply block_proper; [apply G|exact B].
  - lia.
  - intros l X. rewrite Old by lia. now apply (g_frame _ _ _ _ G).
  - rewrite Old by lia. apply G.
  - rewrite Old by lia. apply G.
  - eapply parallelizers_agree; [exact Keep|apply G].
  - intros r I. destruct (g_new _ _ _ _ G r I) as (O & F). split; [eapply own_agree; [exact C|exact Ll|now apply Keep|exact O]|].
    intros l R. apply F. now apply Rold.
  - eapply pairs_impl; [apply (g_disjoint _ _ _ _ G)|]. intros r s Ir Is D l R S. exact (D l (Rold _ _ Ir R) (Rold _ _ Is S)).
Qed.
Lemma with_none s h : make_parallelizer_with_h s HNone HNone HNone h = make_parallelizer_h s HNone h.
Proof.
  unfold make_parallelizer_with_h, make_parallelizer_h. cbn [default_if_none]. unfold hbind, hret.
  destruct (make_mapper_spec_seq_h h) as (h1 & [m|e]); [|reflexivity]. destruct (make_aggregator_spec_concatenate_h h1) as (h2 & [d|e]); [|reflexivity].
  destruct (new_splitter_h s h2) as (h3 & [p|e]); [|reflexivity]. destruct (new_parallelizer_h p m d h3) as (h4 & [q|e]); reflexivity.
Qed.
Definition custom_obj (t : loc) (cmd : string) : obj :=
  OInst "MapperSpec" [("kind", HStr "custom"); ("spec_mapper_cmd_name", HStr cmd); ("flag_option_list_transformer", HRef t); ("is_implemented", py_bool false)].
Lemma custom_run h cmd : make_mapper_spec_custom_h cmd false h = (h ++ [seq_obj; custom_obj (length h + 0) cmd], Ok (HRef (length h + 1))).
Proof. unfold make_mapper_spec_custom_h. erewrite bind_ok by apply run_alloc. rewrite run_alloc, app_snoc, app_length, Nat.add_0_r. reflexivity. Qed.
Lemma custom_block n cmd : block n [seq_obj; custom_obj (n + 0) cmd].
Proof. intros k o E. destruct k as [|[|k]]; cbn in E; try (destruct k; discriminate E); one_obj E. Qed.
Lemma agg_block n a : block n [agg_obj a].
Proof. intros k o E. destruct k as [|k]; cbn in E; try (destruct k; discriminate E). destruct a; one_obj E. Qed.
Lemma two_default h self : (run! cc := make_parallelizer_with_h CONSEC_CHUNKS HNone HNone HNone in
    run! _ := append_to_parallelizer_list_h self cc in
    run! rr := make_parallelizer_with_h ROUND_ROBIN_PLAIN HNone HNone HNone in
    append_to_parallelizer_list_h self rr) h = call_helpers_h [CcSeqConc; RrSeqConc] self h.
Proof.
  cbn [call_helpers_h call_helper_h]. unfold append_new_h. unfold hbind, hret. rewrite with_none.
  destruct (make_parallelizer_h CONSEC_CHUNKS HNone h) as (h1 & [cc|e]); [|reflexivity].
  destruct (append_to_parallelizer_list_h self cc h1) as (h2 & [[]|e]); [|reflexivity]. rewrite with_none.
  destruct (make_parallelizer_h ROUND_ROBIN_PLAIN HNone h2) as (h3 & [rr|e]); [|reflexivity].
  destruct (append_to_parallelizer_list_h self rr h3) as (h4 & [[]|e]); reflexivity.
Qed.
Lemma none_true h : none_or_implemented_h HNone h = (h, Ok true). Proof. reflexivity. Qed.
(** What becomes of the specs: nothing, or there are none *)
Lemma grep_step h0 h inv dir : gstate h0 h new_para_info [] ->
  exists h' i qs, grep_generate_info_h inv (HRef (S (length h0))) h = (h', Ok tt) /\ pg_grep dir inv new_para_info = Ok i /\ gstate h0 h' i qs.
Proof.
  intros G. unfold grep_generate_info_h, pg_grep. destruct (contains_one_of inv ["-q"]); cbn [negb]; [now exists h, new_para_info, []|].
  assert (Two : exists h' i qs, call_helpers_h [CcSeqConc; RrSeqConc] (HRef (S (length h0))) h = (h', Ok tt) /\ call_helpers [CcSeqConc; RrSeqConc] new_para_info = Ok i /\ gstate h0 h' i qs).
  { apply (helpers_steps h0 [CcSeqConc; RrSeqConc] ltac:(repeat constructor; intros p; discriminate) _ _ _ G). }
  assert (Agg : forall f, let a := AggString CUSTOM_2_ARY f false in
    make_aggregator_spec_custom_2_ary_from_string_representation_h f false h = (h ++ [agg_obj a], Ok (HRef (length h + 0))) /\
    none_or_implemented_h (HRef (length h + 0)) (h ++ [agg_obj a]) = (h ++ [agg_obj a], Ok false) /\ gstate h0 (h ++ [agg_obj a]) new_para_info []).
  { intros f a. split; [rewrite Nat.add_0_r; reflexivity|]. split; [|now apply g_garbage, agg_block].
    unfold none_or_implemented_h. now erewrite bind_ok by (eapply get_attr_block; reflexivity). }
  assert (Map : forall cmd, let os := [seq_obj; custom_obj (length h + 0) cmd] in
    none_or_implemented_h (HRef (length h + 1)) (h ++ os) = (h ++ os, Ok false) /\ gstate h0 (h ++ os) new_para_info []).
  { intros cmd os. split; [|now apply g_garbage, custom_block].
    unfold none_or_implemented_h. now erewrite bind_ok by (eapply get_attr_block; reflexivity). }
  unfold grep_cases_h, grep_cases.
  repeat match goal with |- context [if ?b then _ else _] => lazymatch b with
    | negb (contains_one_of inv ["-A"; "-B"; "-C"; "-m"]) => destruct b
    | contains_one_of inv _ => destruct b
    | contains_one_of inv _ && contains_one_of inv _ => destruct b end end.
  all: try (destruct Two as (h' & i & qs & R & V & G'); exists h', i, qs; split; [|split; [exact V|exact G']]; rewrite <- R, <- two_default; reflexivity).
  all: eexists; exists new_para_info, [].
  1, 2: (split; [unfold hbind, hret; rewrite (proj1 (Agg _)), none_true, (proj1 (proj2 (Agg _))); reflexivity|split; [reflexivity|apply Agg]]).
  all: (split; [unfold hbind, hret; rewrite custom_run, (proj1 (Map _)); reflexivity|split; [reflexivity|apply Map]]).
Qed.

(** Although the method uses one mapper spec and one aggregator spec for two parallelizers, the
    parallelizers share nothing: specs that are not the default are never implemented, and then no
    parallelizer is made. *)
Theorem C99_grep : forall dir h inv, closed h -> proper h ->
  exists h' x la qs i, grep_para_h inv h = (h', Ok x) /\ pg_grep dir inv new_para_info = Ok i /\ info_object h' x la i /\
    info_ok h' x (is_commutative i) la qs /\ Forall2 (parallelizer_is h') qs (parallelizer_list i) /\ unchanged h h' /\
    (forall l, reaches h' x l -> length h <= l) /\ ForallOrdPairs (disjoint h') qs.
Proof.
  intros dir h inv C P. destruct (g_start h C P) as (R & G). destruct (grep_step _ _ inv dir G) as (h' & i & qs & R' & V & G').
  exists h', (HRef (S (length h))), (length h), qs, i. split; [unfold grep_para_h, hbind; now rewrite R, R'|]. split; [exact V|].
  split; [exists (S (length h)); eexists; eexists; split; [reflexivity|]; split; [reflexivity|]; split; [reflexivity|apply G']|]. split; [now apply g_ok|].
  split; [apply G'|]. split; [apply G'|]. split; [intros l; eapply g_reaches; eauto|apply G'].
Qed.
Print Assumptions C99_grep.
(** Two parallelizers, and none *)
Example C99_grep_case : exists h x, grep_para_h (mkInv "grep" [Flag "-i"] ["x"]) [] = (h, Ok x) /\ nth_error h 0 = Some (OList [HRef 6; HRef 11]).
Proof. vm_compute. eauto. Qed.
Example C99_grep_case_none : exists h x, grep_para_h (mkInv "grep" [Flag "-n"] ["x"]) [] = (h, Ok x) /\ nth_error h 0 = Some (OList []) /\ length h = 4.
Proof. vm_compute. eauto. Qed.
