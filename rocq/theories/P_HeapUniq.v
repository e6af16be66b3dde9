(** * C99: the two parallelizers of uniq -c have one aggregator spec *)
From Coq Require Import Lia ZArith.
Require Import Verif.PyBase Verif.JsonData Verif.Parser Verif.IOGen Verif.Transformers Verif.ParaTypes Verif.ParaGen Verif.GenHelpers Verif.Heap Verif.HeapInfer Verif.HeapPara Verif.HeapUniq Verif.SpecHeap Verif.SpecHeapEq Verif.SpecInfer Verif.SpecHeapPara
  Verif.HeapFacts Verif.P_Heap Verif.ApplyFacts Verif.InferFacts Verif.P_Infer Verif.HeapParaFacts Verif.P_HeapPara.

(** Counts are asked for, and nothing that rules out parallelizers. *)
Definition counting (inv : invocation) : Prop :=
  contains_one_of inv ["-c"] = true /\ contains_one_of inv ["-d"; "-D"; "--all-repeated"] = false.
(** The aggregator spec of a parallelizer *)
Definition aggregator_at (h : heap) (q : hval) (l : loc) : Prop :=
  exists k attrs, q = HRef k /\ nth_error h k = Some (OInst "Parallelizer" attrs) /\ assoc_s attrs "core_aggregator_spec" = Some (HRef l).

Lemma reaches_within (P : loc -> Prop) h :
  (forall l o v k, P l -> nth_error h l = Some o -> In v (slots o) -> v = HRef k -> P k) ->
  forall v l, reaches h v l -> (forall k, v = HRef k -> P k) -> P l.
Proof. intros H v l R. induction R as [l B|l o v l' E I R IH]; intros S; [now apply S|]. apply IH. intros k X. exact (H l o v k (S l eq_refl) E I X). Qed.
Lemma given_run h os k s a : nth_error os k = Some (agg_obj a) -> negb (is_splitter_round_robin s) || round_robin_aggregator a = true ->
  make_parallelizer_h s (HRef (length h + k)) (h ++ os) =
    (h ++ (os ++ [seq_obj; mapper_obj (length h + length os); conc_obj; splitter_obj s; par_obj (length h + (length os + 3)) (length h + (length os + 1)) (length h + k)]),
     Ok (HRef (length h + (length os + 4)))).
Proof.
  intros E R. unfold make_parallelizer_h. set (M1 := mapper_obj (length h + length os)).
  assert (M : make_mapper_spec_seq_h (h ++ os) = (h ++ (os ++ [seq_obj; M1]), Ok (HRef (length h + (length os + 1))))).
  { unfold make_mapper_spec_seq_h. erewrite bind_ok by apply run_alloc. rewrite run_alloc, !app_length, <- !app_assoc. cbn [length app]. do 3 f_equal. lia. }
  rewrite (bind_ok _ _ _ _ _ M).
  assert (A : make_aggregator_spec_concatenate_h (h ++ (os ++ [seq_obj; M1])) = (h ++ (os ++ [seq_obj; M1; conc_obj]), Ok (HRef (length h + (length os + 2))))).
  { unfold make_aggregator_spec_concatenate_h, new_aggregator_spec_non_func_h. rewrite run_alloc, !app_length, <- !app_assoc. reflexivity. }
  rewrite (bind_ok _ _ _ _ _ A).
  assert (S : new_splitter_h s (h ++ (os ++ [seq_obj; M1; conc_obj])) = (h ++ (os ++ [seq_obj; M1; conc_obj; splitter_obj s]), Ok (HRef (length h + (length os + 3))))).
  { unfold new_splitter_h. rewrite run_alloc, !app_length, <- !app_assoc. reflexivity. }
  rewrite (bind_ok _ _ _ _ _ S). destruct (agg_obj_form a) as (c & attrs & F & K).
  assert (L : k < length os) by (apply nth_error_Some; congruence).
  rewrite (new_parallelizer_run h (os ++ [seq_obj; M1; conc_obj; splitter_obj s]) (length os + 3) (length h + (length os + 1)) k s a c attrs).
  - rewrite <- app_assoc, app_length. reflexivity.
  - now rewrite nth_block.
  - rewrite nth_error_app1 by exact L. now rewrite E, F.
  - exact K.
  - exact R.
Qed.
Definition count_spec : agg_spec := make_aggregator_spec_from_string ADJ_LINES_FUNC "PLACEHOLDER:uniq_merge_count_uniq" false.
Definition count_objs (n : nat) : list obj :=
  [OList [HRef (n + 7); HRef (n + 12)]; info_obj n new_para_info; agg_obj count_spec;
   seq_obj; mapper_obj (n + 3); conc_obj; splitter_obj CONSEC_CHUNKS; par_obj (n + 6) (n + 4) (n + 2);
   seq_obj; mapper_obj (n + 8); conc_obj; splitter_obj ROUND_ROBIN_PLAIN; par_obj (n + 11) (n + 9) (n + 2)].
Lemma update_block {A} (h os : list A) k x : update (h ++ os) (length h + k) x = h ++ update os k x.
Proof. induction h as [|y h IH]; cbn; [reflexivity|now rewrite IH]. Qed.
Lemma push_run h l vs os v : nth_error os 0 = Some (OList vs) -> nth_error os 1 = Some (info_obj (length h) l) ->
  append_to_parallelizer_list_h (HRef (S (length h))) v (h ++ os) = (h ++ update os 0 (OList (vs ++ [v])), Ok tt).
Proof.
  intros E I. unfold append_to_parallelizer_list_h. erewrite bind_ok.
  2:{ eapply get_attr_ok; [replace (S (length h)) with (length h + 1) by lia; rewrite nth_block; exact I|reflexivity]. }
  unfold list_append, hbind, get_obj. replace (nth_error (h ++ os) (length h)) with (nth_error os 0) by (rewrite <- (nth_block h os 0); f_equal; lia).
  rewrite E. unfold put_obj. now rewrite <- update_block, Nat.add_0_r.
Qed.
Lemma count_run h inv : counting inv -> closed h -> proper h -> uniq_para_h inv h = (h ++ count_objs (length h), Ok (HRef (S (length h)))).
Proof.
  intros (Cc & Cd) C P. unfold uniq_para_h. rewrite (bind_ok _ _ _ _ _ (proj1 (g_start h C P))).
  assert (R : uniq_generate_info_h inv (HRef (S (length h))) (h ++ [OList []; info_obj (length h) new_para_info]) = (h ++ count_objs (length h), Ok tt)).
  2:{ unfold hbind. now rewrite R. }
  unfold uniq_generate_info_h. rewrite Cd, Cc. cbn [negb].
  assert (A : make_aggregator_spec_adj_lines_func_from_string_representation_h "PLACEHOLDER:uniq_merge_count_uniq" false (h ++ [OList []; info_obj (length h) new_para_info]) =
    (h ++ [OList []; info_obj (length h) new_para_info; agg_obj count_spec], Ok (HRef (length h + 2)))).
  { unfold make_aggregator_spec_adj_lines_func_from_string_representation_h. rewrite run_alloc, app_snoc, app_length. reflexivity. }
  rewrite (bind_ok _ _ _ _ _ A).
  rewrite (bind_ok _ _ _ _ _ (given_run h [OList []; info_obj (length h) new_para_info; agg_obj count_spec] 2 CONSEC_CHUNKS count_spec eq_refl eq_refl)). cbn [app length Nat.add].
  erewrite bind_ok by (eapply (given_run h _ 2 ROUND_ROBIN_PLAIN count_spec); reflexivity). cbn [app length Nat.add].
  unfold hbind. erewrite push_run by reflexivity. cbn [update app]. erewrite push_run by reflexivity. reflexivity.
Qed.
Lemma nth_cases {A} (h os : list A) l o : nth_error (h ++ os) l = Some o -> length h <= l -> exists k, l = length h + k /\ nth_error os k = Some o.
Proof. intros E L. exists (l - length h). split; [lia|]. now rewrite nth_error_app2 in E. Qed.
(** The objects of the two parallelizers *)
Lemma count_first h l : reaches (h ++ count_objs (length h)) (HRef (length h + 7)) l -> In l (map (Nat.add (length h)) [7; 6; 4; 3; 2]).
Proof.
  intros R. eapply (reaches_within (fun l => In l (map (Nat.add (length h)) [7; 6; 4; 3; 2]))); [|exact R|intros k X; injection X as <-; cbn; tauto].
  clear l R. intros l o v k P E I ->. cbn in P. destruct P as [<-|[<-|[<-|[<-|[<-|[]]]]]]; rewrite nth_block in E; injection E as <-; cbn in I;
    repeat (destruct I as [I|I]; [try discriminate I; injection I as <-; cbn; tauto|]); contradiction.
Qed.
Lemma count_second h l : reaches (h ++ count_objs (length h)) (HRef (length h + 12)) l -> In l (map (Nat.add (length h)) [12; 11; 9; 8; 2]).
Proof.
  intros R. eapply (reaches_within (fun l => In l (map (Nat.add (length h)) [12; 11; 9; 8; 2]))); [|exact R|intros k X; injection X as <-; cbn; tauto].
  clear l R. intros l o v k P E I ->. cbn in P. destruct P as [<-|[<-|[<-|[<-|[<-|[]]]]]]; rewrite nth_block in E; injection E as <-; cbn in I;
    repeat (destruct I as [I|I]; [try discriminate I; injection I as <-; cbn; tauto|]); contradiction.
Qed.
Lemma count_agg h q : q = 7 \/ q = 12 -> reaches (h ++ count_objs (length h)) (HRef (length h + q)) (length h + 2).
Proof.
  intros Q. assert (B : length h + 2 < length (h ++ count_objs (length h))) by (rewrite app_length; cbn; lia).
  destruct Q as [-> | ->]; (eapply reaches_slot; [rewrite nth_block; reflexivity| |apply reaches_here, B]; cbn; tauto).
Qed.
Definition count_par (s : splitter) (b : bool) : parallelizer :=
  mkPar s (mkMapperSpec SAME_AS_SEQ None TSeq true) (AggString ADJ_LINES_FUNC "PLACEHOLDER:uniq_merge_count_uniq" b) NO_ADD_INPUT 0.
Ltac par_parts p s m t a := exists p, (HRef s), (HRef m), (HRef a); split; [reflexivity|]; split; [now rewrite nth_block|];
  split; [exists s; split; [reflexivity|now rewrite nth_block]|]; split;
  [exists m, t, (py_bool true); split; [reflexivity|]; split; [now rewrite nth_block|]; split; [now rewrite nth_block|]; repeat split
  |split; [exists a; eexists; split; [reflexivity|]; split; [reflexivity|]; cbn; now rewrite nth_block|now split]].
Lemma count_values dir inv : counting inv -> pg_uniq dir inv new_para_info = Ok (mkPI [count_par CONSEC_CHUNKS false; count_par ROUND_ROBIN_PLAIN false] false false).
Proof. intros (Cc & Cd). unfold pg_uniq. rewrite Cd, Cc. reflexivity. Qed.

(** The information is the one of the model of values, made of new objects. *)
Theorem C99_uniq : forall dir h inv, closed h -> proper h ->
  exists h' x la qs i, uniq_para_h inv h = (h', Ok x) /\ pg_uniq dir inv new_para_info = Ok i /\ info_object h' x la i /\
    nth_error h' la = Some (OList qs) /\ Forall2 (parallelizer_is h') qs (parallelizer_list i) /\ unchanged h h' /\ length h <= la /\
    (forall q l, In q qs -> reaches h' q l -> length h <= l) /\ (~ counting inv -> ForallOrdPairs (disjoint h') qs).
Proof.
  intros dir h inv C P.
  assert (Gen : forall ks, Forall library_call ks -> uniq_para_h inv h = generate_para_h ks h -> pg_uniq dir inv new_para_info = call_helpers ks new_para_info ->
    exists h' x la qs i, uniq_para_h inv h = (h', Ok x) /\ pg_uniq dir inv new_para_info = Ok i /\ info_object h' x la i /\
    nth_error h' la = Some (OList qs) /\ Forall2 (parallelizer_is h') qs (parallelizer_list i) /\ unchanged h h' /\ length h <= la /\
    (forall q l, In q qs -> reaches h' q l -> length h <= l) /\ (~ counting inv -> ForallOrdPairs (disjoint h') qs)).
  { intros ks F E V. destruct (generate_spec h ks C P F) as (h' & i & qs & R & W & G). exists h', (HRef (S (length h))), (length h), qs, i.
    split; [now rewrite E|]. split; [now rewrite V|]. split; [exists (S (length h)); eexists; eexists; split; [reflexivity|]; split; [reflexivity|]; split; [reflexivity|apply G]|].
    split; [apply G|]. split; [apply G|]. split; [apply G|]. split; [lia|]. split; [|intros _; apply G]. intros q l I X. apply (g_new _ _ _ _ G q I) in X. lia. }
  destruct (contains_one_of inv ["-d"; "-D"; "--all-repeated"]) eqn:Cd.
  { apply (Gen []); [constructor| |]; [unfold uniq_para_h, uniq_generate_info_h; now rewrite Cd|unfold pg_uniq; now rewrite Cd]. }
  destruct (contains_one_of inv ["-c"]) eqn:Cc.
  2:{ apply (Gen [CcSeqAdjs; RrSeqAdjs]); [repeat constructor; intros p; discriminate| |unfold pg_uniq; now rewrite Cd, Cc].
      unfold uniq_para_h, uniq_generate_info_h, generate_para_h. rewrite Cd, Cc. cbn [negb call_helpers_h call_helper_h]. unfold hbind, hret.
      destruct (new_para_info_h h) as (h1 & [self|e]); [|reflexivity].
      destruct (append_new_h CONSEC_CHUNKS _ self h1) as (h2 & [u|e]); [|reflexivity].
      destruct (append_new_h ROUND_ROBIN_PLAIN _ self h2) as (h3 & [[]|e]); reflexivity. }
  assert (Cn : counting inv) by now split.
  exists (h ++ count_objs (length h)), (HRef (S (length h))), (length h), [HRef (length h + 7); HRef (length h + 12)]. eexists.
  split; [now apply count_run|]. split; [now apply count_values|]. split.
  { exists (length h + 1). eexists. eexists. split; [f_equal; lia|]. split; [reflexivity|]. split; [reflexivity|]. now rewrite nth_block. }
  split; [rewrite nth_error_app2, Nat.sub_diag by lia; reflexivity|]. split.
  { constructor; [|constructor; [|constructor]]; cbn [parallelizer_list].
    - par_parts (length h + 7) (length h + 6) (length h + 4) (length h + 3) (length h + 2).
    - par_parts (length h + 12) (length h + 11) (length h + 9) (length h + 8) (length h + 2). }
  split; [intros l L; now apply nth_error_app1|]. split; [lia|]. split; [|intros N; now destruct N].
  intros q l [<-|[<-|[]]] R; [apply count_first in R|apply count_second in R]; cbn in R; lia.
Qed.
Print Assumptions C99_uniq.

(** Two parallelizers of the list share an object exactly if counts are asked for; the one object
    they share is the aggregator spec. *)
Theorem C99_shared_iff : forall h inv h' x la qs, closed h -> proper h -> uniq_para_h inv h = (h', Ok x) ->
  (exists k b, x = HRef k /\ nth_error h' k = Some (OInst "ParallelizabilityInfo" b) /\ assoc_s b "parallelizer_list" = Some (HRef la)) -> nth_error h' la = Some (OList qs) ->
  forall i j p q, i < j -> nth_error qs i = Some p -> nth_error qs j = Some q ->
  ((exists l, reaches h' p l /\ reaches h' q l) <-> counting inv) /\
  (forall l, reaches h' p l -> reaches h' q l -> aggregator_at h' p l /\ aggregator_at h' q l).
Proof.
  intros h inv h' x la qs C P R (k & b & -> & K & B) L i j p q Lt Ni Nj.
  assert (Dec : counting inv \/ ~ counting inv) by (unfold counting; destruct (contains_one_of inv ["-c"]), (contains_one_of inv ["-d"; "-D"; "--all-repeated"]); intuition discriminate).
  destruct Dec as [Cn|Cn].
  - rewrite (count_run h inv Cn C P) in R. injection R as <- <-.
    replace (S (length h)) with (length h + 1) in K by lia. rewrite nth_block in K. injection K as <-. injection B as <-.
    rewrite nth_error_app2, Nat.sub_diag in L by lia. injection L as <-.
    destruct i as [|[|i]]; [|destruct j as [|[|[|j]]]; try lia; discriminate Nj|destruct i; discriminate Ni].
    destruct j as [|[|j]]; [lia| |destruct j; discriminate Nj]. injection Ni as <-. injection Nj as <-. split.
    + split; [auto|]. intros _. exists (length h + 2). split; apply count_agg; auto.
    + intros l X Y. apply count_first in X. apply count_second in Y. assert (l = length h + 2) as -> by (cbn in X, Y; lia).
      split; [exists (length h + 7)|exists (length h + 12)]; eexists; (split; [reflexivity|]; split; [rewrite nth_block; reflexivity|reflexivity]).
  - destruct (C99_uniq (fun _ => FNotFound) h inv C P) as (h1 & x1 & la1 & qs1 & i1 & R1 & _ & (k1 & r & c & -> & _ & _ & K1) & L1 & _ & _ & _ & _ & D).
    rewrite R in R1. injection R1 as <- <-. rewrite K in K1. injection K1 as ->. injection B as ->. rewrite L in L1. injection L1 as <-.
    specialize (D Cn). assert (No : forall l, reaches h' p l -> reaches h' q l -> False).
    2:{ split; [split; [intros (l & X & Y); destruct (No l X Y)|contradiction]|intros l X Y; destruct (No l X Y)]. }
    intros l X Y. clear -D Lt Ni Nj X Y. revert i j Lt Ni Nj.
    induction D as [|y l' F D IH]; intros i j Lt Ni Nj; [destruct i; discriminate Ni|]. destruct j; [lia|]. cbn in Nj. destruct i.
    + injection Ni as ->. rewrite Forall_forall in F. apply nth_error_In in Nj. exact (F _ Nj _ X Y).
    + apply (IH i j); auto. lia.
Qed.
Print Assumptions C99_shared_iff.

(** Who has only one of the two parallelizers of uniq -c can have the parts of the other one
    reported as implemented, which they were not. *)
Theorem C99_independent_refuted : forall h inv h' x, closed h -> proper h -> counting inv -> uniq_para_h inv h = (h', Ok x) ->
  exists la p q v w w' h2 held, nth_error h' la = Some (OList [p; q]) /\
    parallelizer_is h' p v /\ parallelizer_is h' q w /\ are_all_parts_implemented w = false /\
    client h' [p] h2 held /\ nth_error h2 la = Some (OList [p; q]) /\ parallelizer_is h2 q w' /\ are_all_parts_implemented w' = true.
Proof.
  intros h inv h' x C P Cn R. rewrite (count_run h inv Cn C P) in R. injection R as <- <-.
  set (n := length h). set (h2 := h ++ update (count_objs n) 2 (agg_obj (AggString ADJ_LINES_FUNC "PLACEHOLDER:uniq_merge_count_uniq" true))).
  exists n, (HRef (n + 7)), (HRef (n + 12)), (count_par CONSEC_CHUNKS false), (count_par ROUND_ROBIN_PLAIN false), (count_par ROUND_ROBIN_PLAIN true), h2, [HRef (n + 2); HRef (n + 7)].
  split; [unfold n; rewrite nth_error_app2, Nat.sub_diag by lia; reflexivity|].
  split; [unfold n; par_parts (length h + 7) (length h + 6) (length h + 4) (length h + 3) (length h + 2)|].
  split; [unfold n; par_parts (length h + 12) (length h + 11) (length h + 9) (length h + 8) (length h + 2)|].
  split; [reflexivity|]. split.
  { eapply client_read with (v := HRef (n + 2)); [now left|unfold n; rewrite nth_block; reflexivity|cbn; tauto|].
    eapply (client_write _ _ (n + 2) (agg_obj (AggString ADJ_LINES_FUNC "PLACEHOLDER:uniq_merge_count_uniq" true))); [now left|repeat constructor|].
    unfold h2, n. rewrite update_block. apply client_stop. }
  split; [unfold h2, n; rewrite nth_error_app2, Nat.sub_diag by lia; reflexivity|].
  split; [|reflexivity]. unfold h2, n. par_parts (length h + 12) (length h + 11) (length h + 9) (length h + 8) (length h + 2).
Qed.
Print Assumptions C99_independent_refuted.

(** uniq -c *)
Example C99_case_counting : counting (mkInv "uniq" [Flag "-c"] []).
Proof. split; reflexivity. Qed.
Example C99_case_other : ~ counting (mkInv "uniq" [Flag "-c"; Flag "-d"] []) /\ ~ counting (mkInv "uniq" [] []).
Proof. split; intros (A & B); discriminate. Qed.
Example C99_case : exists h x, uniq_para_h (mkInv "uniq" [Flag "-c"] []) [] = (h, Ok x) /\ nth_error h 0 = Some (OList [HRef 7; HRef 12]) /\
  aggregator_at h (HRef 7) 2 /\ aggregator_at h (HRef 12) 2.
Proof. eexists. eexists. split; [reflexivity|]. split; [reflexivity|]. split; eexists; eexists; repeat split; reflexivity. Qed.
