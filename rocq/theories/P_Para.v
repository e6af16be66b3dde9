(** * Theorems about parallelizability information (C25-C28, C30-C33, C53) *)
Require Import Verif.PyBase Verif.JsonData Verif.Parser Verif.Access Verif.IOInfo Verif.IOVars Verif.Transformers
  Verif.ParaTypes Verif.ParaGen Verif.ShippedData Verif.SpecParser Verif.SpecIO Verif.SpecPara Verif.ParaFacts Verif.ParaProps.
From Coq Require Import Lia.

(** ** C25: exactly the parallelizers of the table *)
Theorem C25_exact : forall dir inv o,
  annotated dir inv o <->
  match get_parallelizability_info dir inv with
  | None => o = None
  | Some i => o = Some (parallelizer_list i, is_commutative i)
  end.
Proof.
  intros dir inv o. rewrite annotated_iff. unfold view. destruct (get_parallelizability_info dir inv); cbn; split; auto.
Qed.
Print Assumptions C25_exact.
Theorem C25_cat_flag_never_set : forall dir inv i,
  get_parallelizability_info dir inv = Some i -> round_robin_compatible_with_cat i = false.
Proof. exact info_cat. Qed.
Print Assumptions C25_cat_flag_never_set.
(** One entry of the table at most, and at least one. *)
Theorem C25_table_is_a_function : forall dir inv, exists o, annotated dir inv o /\ forall o', annotated dir inv o' -> o' = o.
Proof.
  intros dir inv. exists (view (get_parallelizability_info dir inv)). split; [apply annotated_view|].
  intros o' H. symmetry. now apply annotated_iff.
Qed.
Print Assumptions C25_table_is_a_function.
Example C25_case_uniq :
  annotated shipped_dir (mkInv "uniq" [Flag "-i"] []) (Some (stateless adj_seq, false)).
Proof. apply C25_exact. vm_compute. reflexivity. Qed.
Example C25_case_sort :
  annotated shipped_dir (mkInv "sort" [Flag "-n"; Option_ "-k" "2"] []) (Some ([chunks sort_merge], true)) /\
  annotated shipped_dir (mkInv "sort" [Flag "-n"; Flag "-u"] []) (Some ([], true)).
Proof. split; apply C25_exact; vm_compute; reflexivity. Qed.
Example C25_case_none : annotated shipped_dir (mkInv "wc" [] []) None /\ annotated shipped_dir (mkInv "sed" [] []) None.
Proof. split; apply C25_exact; vm_compute; reflexivity. Qed.
(** shipped data: the reduce command of bigrams is obtained through a file that exists, or not *)
Example C25_case_bigrams : exists i, get_parallelizability_info shipped_dir (mkInv "bigrams_aux" [] []) = Some i.
Proof. eexists. vm_compute. reflexivity. Qed.

(** ** C26: round robin needs an order-insensitive aggregation *)
Theorem C26_constructors : forall p,
  buildable p -> p_splitter p = ROUND_ROBIN_PLAIN -> order_insensitive (agg_kind_of (p_aggregator p)).
Proof. exact build_round_robin. Qed.
Print Assumptions C26_constructors.
Theorem C26_constructor_rejects : forall m a i n,
  ~ order_insensitive (agg_kind_of a) -> new_parallelizer ROUND_ROBIN_PLAIN m a i n = Raise AssertionError.
Proof.
  intros m a i n H. unfold new_parallelizer, round_robin_aggregator. unfold order_insensitive in H.
  destruct (agg_kind_of a); cbn; reflexivity || (exfalso; apply H; auto).
Qed.
Print Assumptions C26_constructor_rejects.
Theorem C26_everything_returned : forall dir inv i k ls i' l p,
  get_parallelizability_info dir inv = Some i -> calls k i ls i' -> In l ls -> In p l ->
  p_splitter p = ROUND_ROBIN_PLAIN -> order_insensitive (agg_kind_of (p_aggregator p)).
Proof.
  intros dir inv i k ls i' l p H C I J. apply build_round_robin. revert I J.
  apply (calls_buildable k i ls i'); [|exact C]. intros q.
  eapply (annotated_buildable dir inv _ (is_commutative i)). apply annotated_iff. now rewrite H.
Qed.
Print Assumptions C26_everything_returned.
Example C26_case : exists i l i' p,
  get_parallelizability_info shipped_dir (mkInv "uniq" [Flag "-c"] []) = Some i /\ calls 1 i [l] i' /\ In p l /\
  p_splitter p = ROUND_ROBIN_PLAIN.
Proof.
  eexists. eexists. eexists. eexists. split; [vm_compute; reflexivity|]. split.
  - econstructor; [apply inferring_spec|constructor].
  - split; [right; left; reflexivity|reflexivity].
Qed.
Example C26_rejects_case :
  new_parallelizer ROUND_ROBIN_PLAIN seq_mapper sort_merge None 0 = Raise AssertionError.
Proof. reflexivity. Qed.

(** ** C27: inferred parallelizers *)
Theorem C27_inferred : forall i, exists copies,
  chunk_copies (parallelizer_list i) copies /\
  let l := parallelizer_list i ++ (if is_commutative i then copies else []) in
  inferring i l (mkPI l (round_robin_compatible_with_cat i) (is_commutative i)).
Proof.
  intros i. exists (copies (parallelizer_list i)). split; [apply copies_spec|]. exact (inferring_spec i).
Qed.
Print Assumptions C27_inferred.
(** ... and nothing else *)
Theorem C27_inferred_only : forall i l i', inferring i l i' ->
  exists copies, chunk_copies (parallelizer_list i) copies /\
    l = parallelizer_list i ++ (if is_commutative i then copies else []) /\
    i' = mkPI l (round_robin_compatible_with_cat i) (is_commutative i).
Proof.
  intros i l i' H. apply inferring_eq in H as [-> ->]. exists (copies (parallelizer_list i)).
  split; [apply copies_spec|]. split; reflexivity.
Qed.
Print Assumptions C27_inferred_only.
Theorem C27_never_partial : forall i fuel i' l,
  get_inferred_parallelizer_list fuel i = Some (i', l) -> inferring i l i'.
Proof.
  intros i fuel i' l H. pose proof (inferring_spec i) as [n S].
  enough (E : get_inferred_parallelizer_list (fuel + n) i = Some (i', l)).
  { rewrite S in E by lia. injection E as <- <-. exists n. exact S. }
  revert H. unfold get_inferred_parallelizer_list.
  assert (M : forall f c p l l', infer_loop f c p l = Some l' -> infer_loop (f + n) c p l = Some l').
  { induction f as [|f IH]; intros c p l0 l' E; cbn in *; [discriminate|].
    destruct (nth_error l0 p); [now apply IH|exact E]. }
  destruct (infer_loop fuel _ _ _) eqn:E; [|discriminate]. now rewrite (M _ _ _ _ _ E).
Qed.
Print Assumptions C27_never_partial.
Example C27_case : exists i, get_parallelizability_info shipped_dir (mkInv "sort" [] []) = Some i /\
  inferring i [chunks sort_merge; with_splitter ROUND_ROBIN_UNWRAP_FLAG (chunks sort_merge)]
    (mkPI [chunks sort_merge; with_splitter ROUND_ROBIN_UNWRAP_FLAG (chunks sort_merge)] false true).
Proof. eexists. split; [vm_compute; reflexivity|]. exact (inferring_spec (mkPI [chunks sort_merge] false true)). Qed.

(** ** C28: asking again *)
(** Refuted: for sort the second answer has one parallelizer more than the first. *)
Theorem C28_same_answer_refuted : exists i l1 l2 i',
  get_parallelizability_info shipped_dir (mkInv "sort" [] []) = Some i /\ calls 2 i [l1; l2] i' /\ length l1 < length l2.
Proof.
  eexists. eexists. eexists. eexists. split; [vm_compute; reflexivity|]. split.
  - econstructor; [apply inferring_spec|]. econstructor; [apply inferring_spec|constructor].
  - vm_compute. auto.
Qed.
Print Assumptions C28_same_answer_refuted.
(** The exact condition *)
Theorem C28_same_answer_iff : forall i,
  (forall k ls i' l, calls k i ls i' -> In l ls -> l = parallelizer_list i) <->
  (is_commutative i = false \/ forall p, In p (parallelizer_list i) -> p_splitter p <> CONSEC_CHUNKS).
Proof.
  intros i. split.
  - intros H. destruct (is_commutative i) eqn:C; [right|now left]. apply copies_nil.
    specialize (H 1 [inferred i] (after i) (inferred i)).
    assert (E : inferred i = parallelizer_list i).
    { apply H; [|now left]. econstructor; [apply inferring_spec|constructor]. }
    unfold inferred in E. rewrite C in E. rewrite <- (app_nil_r (parallelizer_list i)) in E at 3. now apply app_inv_head in E.
  - intros H k ls i' l Ca I.
    assert (H' : is_commutative i = false \/ copies (parallelizer_list i) = []) by (destruct H as [H|H]; [now left|right; now apply copies_nil]).
    destruct (calls_stable k i ls i' H' Ca) as [F _]. rewrite Forall_forall in F. symmetry. now apply F.
Qed.
Print Assumptions C28_same_answer_iff.
(** What the [m]-th of [k] calls returns when the command is commutative *)
Theorem C28_every_call_adds : forall i copies k ls i',
  is_commutative i = true -> chunk_copies (parallelizer_list i) copies -> calls k i ls i' ->
  length ls = k /\
  forall m, m < k -> nth_error ls m = Some (parallelizer_list i ++ List.concat (repeat copies (S m))).
Proof.
  intros i c k ls i' C H Ca. apply chunk_copies_fun in H as ->. split.
  - clear C. induction Ca; cbn; auto.
  - now apply (calls_spec k i ls i').
Qed.
Print Assumptions C28_every_call_adds.
Example C28_case : exists ls i', calls 3 (mkPI [chunks sort_merge] false true) ls i'.
Proof. apply calls_total. Qed.
(** The other shipped annotations are stable. *)
Theorem C28_only_sort : forall dir inv i k ls i' l,
  get_parallelizability_info dir inv = Some i -> ~ In (cmd_name inv) ["sort"; "custom_sort"] ->
  calls k i ls i' -> In l ls -> l = parallelizer_list i.
Proof.
  intros dir inv i k ls i' l H N. revert k ls i' l. apply C28_same_answer_iff. left.
  assert (A : annotated dir inv (Some (parallelizer_list i, is_commutative i))) by (apply C25_exact; now rewrite H).
  inversion A; congruence || (exfalso; tauto).
Qed.
Print Assumptions C28_only_sort.
Example C28_only_sort_case : exists i, get_parallelizability_info shipped_dir (mkInv "uniq" [] []) = Some i /\
  parallelizer_list i <> [] /\ ~ In "uniq" ["sort"; "custom_sort"].
Proof. eexists. split; [vm_compute; reflexivity|]. split; [discriminate|]. intros [E|[E|[]]]; discriminate E. Qed.

(** ** C30: transformers of flag lists *)
Theorem C30_filter : forall names l, kept (named names) l (transform (TFilter names) l).
Proof. intros names l. apply filter_kept. intros x. apply mem_iff. Qed.
Print Assumptions C30_filter.
Theorem C30_remove : forall names l, kept (fun x => ~ named names x) l (transform (TRemove names) l).
Proof. intros names l. apply filter_kept. intros x. rewrite negb_true_iff. unfold named. apply bool_iff_false, mem_iff. Qed.
Print Assumptions C30_remove.
Theorem C30_add : forall adds l, exists extra,
  transform (TAdd adds) l = l ++ extra /\ kept (fun x => ~ (In x l /\ comparable x)) adds extra.
Proof. intros adds l. apply transform_add. Qed.
Print Assumptions C30_add.
Theorem C30_others : forall l custom,
  transform TSeq l = l /\ transform TEmpty l = [] /\ transform (TCustom custom) l = custom.
Proof. intros l custom. repeat split. Qed.
Print Assumptions C30_others.
Theorem C30_chain : forall ts l l', runs ts l l' <-> transform (TChain ts) l = l'.
Proof.
  intros ts l l'. split.
  - induction 1 as [l|t ts l l' R IH]; cbn in *; [reflexivity|exact IH].
  - intros <-. apply transform_chain.
Qed.
Print Assumptions C30_chain.
Theorem C30_nothing_else : forall t l x, In x (transform t l) -> In x l \/ mentions t x.
Proof. exact transform_provenance. Qed.
Print Assumptions C30_nothing_else.
Example C30_case :
  transform (TChain [TRemove ["-o"]; TChain [TFilter ["-n"; "-k"]; TAdd [FFlag "-m"; FFlag "-n"]]])
    [FFlag "-n"; FFlag "-u"; FOptIO "-o" (PVar 3); FOptIO "-k" (PArg "2")] =
  [FFlag "-n"; FOptIO "-k" (PArg "2"); FFlag "-m"].
Proof. reflexivity. Qed.
(** The elements to add are compared with the original list only: a repeated new element is
    added repeatedly (the comment in TransformerFlagOptionList.py:73 speaks of duplicates). *)
Theorem C30_add_keeps_own_duplicates_refuted : exists adds l,
  NoDup l /\ ~ NoDup (transform (TAdd adds) l).
Proof.
  exists [FFlag "-m"; FFlag "-m"], []. split; [constructor|]. intros H. cbn in H. inversion H; subst. apply H2. now left.
Qed.
Print Assumptions C30_add_keeps_own_duplicates_refuted.

(** ** C31: flags of the merging sort *)
Theorem C31_sort_flags : forall dir inv l b p, In (cmd_name inv) ["sort"; "custom_sort"] ->
  annotated dir inv (Some (l, b)) -> In p l ->
  exists t, p_aggregator p = AggTransformer CUSTOM_2_ARY t true /\
    forall flags, exists order, kept (named sort_order_flags) flags order /\
      transform t flags = order ++ [FFlag "-m"].
Proof.
  intros dir inv l b p C A I.
  assert (E : l = [] \/ l = [chunks sort_merge]).
  { inversion A; subst; auto; exfalso; cbn in C;
      repeat match goal with
             | H : In (cmd_name inv) _ |- _ => cbn in H
             end; intuition congruence. }
  destruct E as [->| ->]; [destruct I|]. destruct I as [<-|[]]. eexists. split; [reflexivity|]. apply sort_flags.
Qed.
Print Assumptions C31_sort_flags.
Theorem C31_no_output_file : forall flags order, kept (named sort_order_flags) flags order ->
  forall x, In x (order ++ [FFlag "-m"]) -> fe_name x <> "-o".
Proof.
  intros flags order K x I E. apply in_app_or in I as [I|[<-|[]]]; [|discriminate E].
  apply (kept_in _ _ _ _ K) in I as [_ N]. unfold named in N. rewrite E in N. cbn in N.
  repeat destruct N as [N|N]; discriminate N || exact N.
Qed.
Print Assumptions C31_no_output_file.
Example C31_case : transform sort_transformer
    [FFlag "-n"; FOptIO "-o" (PRes (mkRes (FileName "out") OTHER_OUTPUT)); FFlag "--debug"; FOptIO "-k" (PArg "2")] =
  [FFlag "-n"; FOptIO "-k" (PArg "2"); FFlag "-m"].
Proof. reflexivity. Qed.

(** ** C32: grep with context or a limit *)
(** Refuted: exactly the contrary holds, whatever else is given except -q. *)
Theorem C32_context_gets_concat_refuted : forall dir inv,
  cmd_name inv = "grep" -> uses_any inv ["-A"; "-B"; "-C"; "-m"] -> ~ uses inv "-q" ->
  annotated dir inv (Some (stateless concat, false)).
Proof. intros dir inv C U Q. apply an_grep; auto. Qed.
Print Assumptions C32_context_gets_concat_refuted.
Example C32_context_case : exists inv, parse shipped_dir "grep -m 1 -c foo f" = Ok inv /\
  annotated shipped_dir inv (Some (stateless concat, false)).
Proof. eexists. split; [vm_compute; reflexivity|]. apply C25_exact. vm_compute. reflexivity. Qed.
(** The exact condition for a parallelizer *)
Theorem C32_grep_iff : forall dir inv l b, cmd_name inv = "grep" -> annotated dir inv (Some (l, b)) ->
  (l <> [] <-> ~ uses inv "-q" /\
     (uses_any inv ["-A"; "-B"; "-C"; "-m"] \/ ~ uses_any inv ["-L"; "-l"; "-c"; "-n"; "-b"])) /\
  (l <> [] -> l = stateless concat).
Proof.
  intros dir inv l b C A.
  inversion A; subst; try (exfalso; cbn in *; intuition congruence); (split; [|congruence || auto]); split;
    try congruence; try (intros _; split; assumption); try discriminate; tauto.
Qed.
Print Assumptions C32_grep_iff.
Example C32_grep_case : annotated shipped_dir (mkInv "grep" [Flag "-c"] ["x"]) (Some ([], false)) /\
  annotated shipped_dir (mkInv "grep" [Flag "-i"] ["x"]) (Some (stateless concat, false)).
Proof. split; apply C25_exact; vm_compute; reflexivity. Qed.

(** ** C33: tr and newlines *)
(** Refuted: an escape at the start of the set is not seen. *)
Theorem C33_newline_refuted : exists inv,
  parse shipped_dir "tr -d '\n'" = Ok inv /\ uses inv "-d" /\ operand_list inv = ["\n"] /\
  annotated shipped_dir inv (Some (stateless concat, false)).
Proof.
  eexists. split; [vm_compute; reflexivity|]. split; [|split; [reflexivity|apply C25_exact; vm_compute; reflexivity]].
  apply IOFacts.contains1. vm_compute. reflexivity.
Qed.
Print Assumptions C33_newline_refuted.
(** The word splitter of many pipelines is misclassified for the same reason. *)
Theorem C33_word_splitter_refuted : exists inv,
  parse shipped_dir "tr -cs A-Za-z '\n'" = Ok inv /\ uses inv "-s" /\ operand_list inv = ["A-Za-z"; "\n"] /\
  annotated shipped_dir inv (Some (stateless concat, false)).
Proof.
  eexists. split; [vm_compute; reflexivity|]. split; [|split; [reflexivity|apply C25_exact; vm_compute; reflexivity]].
  apply IOFacts.contains1. vm_compute. reflexivity.
Qed.
Print Assumptions C33_word_splitter_refuted.
(** The exact condition *)
Theorem C33_concat_iff : forall dir inv l b, cmd_name inv = "tr" -> annotated dir inv (Some (l, b)) ->
  (l = stateless concat <-> ~ (uses_any inv ["-d"; "-s"] /\ acts_on_newline inv)) /\
  (l <> stateless concat -> forall p, In p l -> are_all_parts_implemented p = false).
Proof.
  assert (D : forall inv, uses inv "-d" -> uses_any inv ["-d"; "-s"]) by (intros inv U; exists "-d"; cbn; auto).
  assert (S : forall inv, uses inv "-s" -> uses_any inv ["-d"; "-s"]) by (intros inv U; exists "-s"; cbn; auto).
  intros dir inv l b C A.
  inversion A; subst; try (exfalso; cbn in *; intuition congruence); (split; [split|]); try tauto; try discriminate;
    try (intros N; elim N; now auto); intros N p [<-|[<-|[]]]; reflexivity || (exfalso; now apply N).
Qed.
Print Assumptions C33_concat_iff.
(** so a recognised newline is never treated by concatenation *)
Theorem C33_recognised_partial : forall dir inv l b,
  cmd_name inv = "tr" -> uses_any inv ["-d"; "-s"] -> acts_on_newline inv -> annotated dir inv (Some (l, b)) ->
  forall p, In p l -> p_aggregator p <> concat.
Proof.
  intros dir inv l b C U N A p I. destruct (C33_concat_iff dir inv l b C A) as [E F].
  intros X. assert (Y : are_all_parts_implemented p = false).
  { apply F; [|exact I]. rewrite E. tauto. }
  assert (M : p_mapper p = seq_mapper).
  { inversion A; subst; try (exfalso; cbn in *; intuition congruence); try destruct I as [<-|[<-|[]]]; try reflexivity; destruct I. }
  unfold are_all_parts_implemented in Y. rewrite M, X in Y. discriminate.
Qed.
Print Assumptions C33_recognised_partial.
Example C33_recognised_case : exists inv, parse shipped_dir "tr -d ' \n'" = Ok inv /\
  annotated shipped_dir inv (Some (stateless adj_merge, false)).
Proof. eexists. split; [vm_compute; reflexivity|]. apply C25_exact. vm_compute. reflexivity. Qed.

(** ** C53: lists *)
Theorem C53_deduplication : forall {A} (eqb : A -> A -> bool), (forall x y, eqb x y = true <-> x = y) ->
  forall l, first_occ l (list_deduplication eqb l).
Proof. intros A eqb E l. now apply dedup_spec. Qed.
Print Assumptions C53_deduplication.
Theorem C53_deduplication_facts : forall {A} (eqb : A -> A -> bool), (forall x y, eqb x y = true <-> x = y) ->
  forall l, NoDup (list_deduplication eqb l) /\ (forall x, In x (list_deduplication eqb l) <-> In x l) /\
    subseq (list_deduplication eqb l) l.
Proof. intros A eqb E l. now apply first_occ_facts, dedup_spec. Qed.
Print Assumptions C53_deduplication_facts.
Theorem C53_foldl : forall {A B} (f : A -> B -> B) l acc, foldl f acc l = fold_left (fun b a => f a b) l acc.
Proof. intros A B f l acc. apply foldl_fold_left. Qed.
Print Assumptions C53_foldl.
Example C53_case : list_deduplication Nat.eqb [3; 1; 3; 2; 1] = [3; 1; 2].
Proof. reflexivity. Qed.

(** ** C57: specification objects and their defaults *)
(** A sequential mapper takes neither a command name nor a transformer; otherwise the attributes are the arguments. *)
Theorem C57_mapper_spec : forall kind cmd t impl,
  (kind = SAME_AS_SEQ /\ (cmd <> None \/ t <> None) /\ new_mapper_spec kind cmd t impl = Raise AssertionError) \/
  ((kind = CUSTOM \/ cmd = None /\ t = None) /\
   exists m, new_mapper_spec kind cmd t impl = Ok m /\ ms_kind m = kind /\ ms_cmd_name m = cmd /\ ms_is_implemented m = impl /\
     forall l, transform (ms_transformer m) l = match t with None => l | Some t => transform t l end).
Proof.
  intros [] cmd t impl.
  - destruct cmd, t; try (left; repeat split; reflexivity || (left; discriminate) || (right; discriminate)).
    right. split; [auto|]. eexists. repeat split.
  - right. split; [auto|]. eexists. repeat split. destruct t; reflexivity.
Qed.
Print Assumptions C57_mapper_spec.
Example C57_mapper_spec_case : new_mapper_spec SAME_AS_SEQ None (Some TEmpty) true = Raise AssertionError.
Proof. reflexivity. Qed.
(** A mapper given as text: the command name and the flags of the text; its operands are
    dropped and an option makes it fail. *)
Theorem C57_mapper_from_text : forall dir s impl,
  (forall m, make_mapper_spec_custom_from_string dir s impl = Ok m <->
     exists inv ns, parse dir s = Ok inv /\ flag_option_list inv = map Flag ns /\
       m = mkMapperSpec CUSTOM (Some (cmd_name inv)) (TCustom (map FFlag ns)) impl) /\
  (forall inv n a, parse dir s = Ok inv -> In (Option_ n a) (flag_option_list inv) ->
     make_mapper_spec_custom_from_string dir s impl = Raise AssertionError) /\
  (forall e, parse dir s = Raise e -> make_mapper_spec_custom_from_string dir s impl = Raise e).
Proof.
  assert (F : forall l, match only_flags l with
     | Ok fs => exists ns, l = map Flag ns /\ fs = map FFlag ns
     | Raise e => e = AssertionError /\ exists n a, In (Option_ n a) l end).
  { unfold only_flags. induction l as [|[n|n a] l IH]; cbn; [exists []; auto| |].
    - destruct (map_result _ l) as [fs|e].
      + destruct IH as (ns & -> & ->). exists (n :: ns). auto.
      + destruct IH as (-> & m & a & I). split; [reflexivity|]. exists m, a. auto.
    - split; [reflexivity|]. exists n, a. auto. }
  intros dir s impl. unfold make_mapper_spec_custom_from_string. split; [|split].
  - intros m. destruct (parse dir s) as [inv|e]; cbn [bind];
      [|split; [discriminate|intros (i & ns & H & _); discriminate]].
    specialize (F (flag_option_list inv)). destruct (only_flags (flag_option_list inv)) as [fs|e]; cbn [bind].
    + destruct F as (ns & E & ->). split.
      * intros H. injection H as <-. exists inv, ns. auto.
      * intros (i & ns' & H & E' & ->). injection H as <-. rewrite E in E'.
        assert (ns = ns') as <-; [|reflexivity]. clear -E'. revert ns' E'.
        induction ns as [|n ns IH]; intros [|n' ns'] H; try discriminate; [reflexivity|].
        injection H as -> H. now rewrite (IH _ H).
    + destruct F as (_ & n & a & I). split; [discriminate|]. intros (i & ns & H & E & _). injection H as <-.
      rewrite E in I. apply in_map_iff in I as (x & X & _). discriminate.
  - intros inv n a P I. rewrite P. cbn [bind]. specialize (F (flag_option_list inv)).
    destruct (only_flags (flag_option_list inv)) as [fs|e]; cbn [bind]; [|now destruct F as [-> _]].
    destruct F as (ns & E & _). rewrite E in I. apply in_map_iff in I as (x & X & _). discriminate.
  - intros e P. now rewrite P.
Qed.
Print Assumptions C57_mapper_from_text.
Example C57_mapper_from_text_case :
  make_mapper_spec_custom_from_string shipped_dir "sort -rn words" true =
    Ok (mkMapperSpec CUSTOM (Some "sort") (TCustom [FFlag "-r"; FFlag "-n"]) true) /\
  make_mapper_spec_custom_from_string shipped_dir "sort -k 2" true = Raise AssertionError.
Proof. vm_compute. auto. Qed.

(** Without transformer: the same flags, or none, depending on the default asked for. *)
Theorem C57_transformer_defaults : forall t l,
  transform (transformer_or_seq None) l = l /\ transform (transformer_or_empty None) l = [] /\
  transform (transformer_or_seq (Some t)) l = transform t l /\ transform (transformer_or_empty (Some t)) l = transform t l.
Proof. intros t l. repeat split. Qed.
Print Assumptions C57_transformer_defaults.
(** A parallelizer has the parts it is given; the default mapper is the command itself, the default aggregator
    the concatenation, without additional information. *)
Theorem C57_parallelizer : forall s m a i n,
  let a' := match a with None => concat | Some a => a end in
  (s = ROUND_ROBIN_PLAIN /\ ~ order_insensitive (agg_kind_of a') /\ make_parallelizer s m a i n = Raise AssertionError) \/
  (s = ROUND_ROBIN_PLAIN -> order_insensitive (agg_kind_of a')) /\
  exists p, make_parallelizer s m a i n = Ok p /\ p_splitter p = s /\ p_aggregator p = a' /\
    p_mapper p = (match m with None => seq_mapper | Some m => m end) /\
    p_info_splitter_mapper p = (match i with None => NO_ADD_INPUT | Some i => i end) /\
    p_info_mapper_aggregator p = n.
Proof.
  intros s m a i n a'. assert (D : order_insensitive (agg_kind_of a') \/ ~ order_insensitive (agg_kind_of a')).
  { unfold order_insensitive. destruct (agg_kind_of a'); (left; tauto) || (right; intuition discriminate). }
  assert (R : round_robin_aggregator a' = true <-> order_insensitive (agg_kind_of a')).
  { unfold round_robin_aggregator, order_insensitive. destruct (agg_kind_of a'); intuition discriminate. }
  assert (E : make_parallelizer s m a i n = new_parallelizer s (match m with None => seq_mapper | Some m => m end) a' i n) by reflexivity.
  rewrite E. unfold new_parallelizer. destruct s; cbn; try (right; split; [discriminate|]; eexists; repeat split; fail).
  destruct D as [D|D].
  - apply R in D as D'. rewrite D'. right. split; [auto|]. eexists. repeat split.
  - left. destruct (round_robin_aggregator a'); [exfalso; tauto|]. auto.
Qed.
Print Assumptions C57_parallelizer.
Example C57_parallelizer_case : make_parallelizer ROUND_ROBIN_PLAIN None (Some sort_merge) None 0 = Raise AssertionError /\
  make_parallelizer CONSEC_CHUNKS None None (Some LINE_NUM_OFFSET) 2 = Ok (mkPar CONSEC_CHUNKS seq_mapper concat LINE_NUM_OFFSET 2).
Proof. split; reflexivity. Qed.
(** [unpack_info] returns the inferred list, then the compatibility with cat, then commutativity. *)
Theorem C57_unpack : forall i l i',
  inferring i l i' <->
  exists n, forall fuel, n <= fuel ->
    unpack_info fuel i = Some (i', (l, round_robin_compatible_with_cat i, is_commutative i)).
Proof.
  intros i l i'. unfold inferring, unpack_info, get_inferred_parallelizer_list.
  split; intros [n H]; exists n; intros fuel F; specialize (H fuel F); revert H;
    destruct (infer_loop fuel (is_commutative i) 0 (parallelizer_list i)) as [x|]; try discriminate; cbn; intros H;
    injection H; intros; subst; reflexivity.
Qed.
Print Assumptions C57_unpack.
Example C57_unpack_case : unpack_info 9 (mkPI [chunks concat] true false) =
  Some (mkPI [chunks concat] true false, ([chunks concat], true, false)).
Proof. reflexivity. Qed.
