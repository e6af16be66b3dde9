(** * More facts about parallelizability information *)
Require Export Verif.ListFacts.
Require Import Verif.PyBase Verif.JsonData Verif.Parser Verif.Access Verif.IOGen Verif.IOVars Verif.Transformers
  Verif.ParaTypes Verif.ParaGen Verif.SpecParser Verif.SpecIO Verif.SpecPara Verif.IOFacts Verif.ParaFacts.
From Coq Require Import Lia.

(** ** Round robin *)
Lemma build_round_robin p : buildable p -> p_splitter p = ROUND_ROBIN_PLAIN ->
  order_insensitive (agg_kind_of (p_aggregator p)).
Proof.
  intros [s m a i n q H|q H]; [|discriminate]. intros E.
  unfold new_parallelizer in H. destruct (negb (is_splitter_round_robin s) || round_robin_aggregator a) eqn:B; [|discriminate].
  cbn in H. injection H as <-. cbn in *. subst s. cbn in B.
  unfold round_robin_aggregator in B. unfold order_insensitive. destruct (agg_kind_of a); try discriminate; auto.
Qed.

Lemma annotated_buildable dir inv l b p : annotated dir inv (Some (l, b)) -> In p l -> buildable p.
Proof.
  assert (S : forall a q, round_robin_aggregator a = true -> In q (stateless a) -> buildable q).
  { intros a q R [<-|[<-|[]]].
    - apply (build_new CONSEC_CHUNKS seq_mapper a None 0). unfold new_parallelizer. cbn. reflexivity.
    - apply (build_new ROUND_ROBIN_PLAIN seq_mapper a None 0). unfold new_parallelizer. cbn. now rewrite R. }
  assert (C : forall m a n q, In q [mkPar CONSEC_CHUNKS m a NO_ADD_INPUT n] -> buildable q).
  { intros m a n q [<-|[]]. now apply (build_new CONSEC_CHUNKS m a None n). }
  intros H. inversion H; subst; intros I; clear H; first [exfalso; exact I | solve [refine (S _ p _ I); reflexivity] | solve [refine (C _ _ _ p I)]].
Qed.

(** ** The loop that appends to the list it runs over *)
Notation unwrap := make_parallelizer_round_robin_with_unwrap_from_other.
Fixpoint copies (l : list parallelizer) : list parallelizer :=
  match l with
  | [] => []
  | p :: l' => if is_splitter_consec_chunks (p_splitter p) then unwrap p :: copies l' else copies l'
  end.
Lemma copies_spec l : chunk_copies l (copies l).
Proof.
  induction l as [|p l IH]; cbn; [constructor|]. destruct (p_splitter p) eqn:E; cbn.
  1-3: apply cc_other; [congruence|exact IH].
  apply (cc_chunks p); assumption.
Qed.
Lemma chunk_copies_fun l a : chunk_copies l a -> a = copies l.
Proof.
  induction 1 as [|p l l' E H IH|p l l' E H IH]; cbn; [reflexivity| |].
  - rewrite E. cbn. now rewrite IH.
  - destruct (p_splitter p); cbn; congruence.
Qed.
Lemma copies_app a b : copies (a ++ b) = copies a ++ copies b.
Proof. induction a as [|p a IH]; cbn; [reflexivity|]. destruct (is_splitter_consec_chunks _); cbn; now rewrite IH. Qed.
Lemma copies_copies l : copies (copies l) = [].
Proof. induction l as [|p l IH]; cbn; [reflexivity|]. destruct (is_splitter_consec_chunks _); cbn; exact IH. Qed.
Lemma copies_length l : length (copies l) <= length l.
Proof. induction l as [|p l IH]; cbn; [lia|]. destruct (is_splitter_consec_chunks _); cbn; lia. Qed.


Lemma loop_spec : forall fuel c pre post,
  length post + length (if c : bool then copies post else []) < fuel ->
  infer_loop fuel c (length pre) (pre ++ post) = Some (pre ++ post ++ if c : bool then copies post else []).
Proof.
  induction fuel as [|fuel IH]; intros c pre post F; [lia|]. cbn [infer_loop].
  destruct post as [|p post].
  - rewrite app_nil_r. destruct (nth_error pre (length pre)) eqn:E.
    + assert (length pre < length pre) by (apply nth_error_Some; congruence). lia.
    + destruct c; cbn; now rewrite app_nil_r.
  - rewrite nth_error_app2, Nat.sub_diag by lia. cbn [nth_error].
    replace (S (length pre)) with (length (pre ++ [p])) by (rewrite app_length; cbn; lia).
    destruct (c && is_splitter_consec_chunks (p_splitter p)) eqn:B.
    + apply andb_true_iff in B as [-> B]. cbn [copies] in *. rewrite B in *. cbn [length] in F.
      replace ((pre ++ p :: post) ++ [unwrap p]) with ((pre ++ [p]) ++ post ++ [unwrap p])
        by (rewrite <- !app_assoc; reflexivity).
      rewrite IH; rewrite copies_app; cbn [copies is_splitter_consec_chunks p_splitter unwrap]; rewrite app_nil_r.
      * rewrite <- !app_assoc. reflexivity.
      * rewrite app_length. cbn [length]. lia.
    + replace (pre ++ p :: post) with ((pre ++ [p]) ++ post) by (rewrite <- app_assoc; reflexivity).
      rewrite IH.
      * rewrite <- !app_assoc. destruct c; [|reflexivity]. cbn in B. cbn [copies]. now rewrite B.
      * destruct c; cbn [length] in *; [|lia]. cbn in B. cbn [copies] in F. rewrite B in F. lia.
Qed.

Definition inferred (i : para_info) : list parallelizer :=
  parallelizer_list i ++ (if is_commutative i then copies (parallelizer_list i) else []).
Definition after (i : para_info) : para_info :=
  mkPI (inferred i) (round_robin_compatible_with_cat i) (is_commutative i).
Lemma inferring_spec i : inferring i (inferred i) (after i).
Proof.
  exists (S (length (parallelizer_list i) + length (if is_commutative i then copies (parallelizer_list i) else []))).
  intros fuel F. unfold get_inferred_parallelizer_list.
  pose proof (loop_spec fuel (is_commutative i) [] (parallelizer_list i)) as L. cbn [length app] in L.
  rewrite L by lia. reflexivity.
Qed.
Lemma inferring_fun i l i' l2 i2 : inferring i l i' -> inferring i l2 i2 -> l = l2 /\ i' = i2.
Proof.
  intros [n A] [m B]. specialize (A (n + m)). specialize (B (n + m)). rewrite A in B by lia.
  specialize (B ltac:(lia)). split; congruence.
Qed.
Lemma inferring_eq i l i' : inferring i l i' -> l = inferred i /\ i' = after i.
Proof. intros H. eapply inferring_fun; [exact H|apply inferring_spec]. Qed.

Lemma inferred_after i : is_commutative i = true -> inferred (after i) = inferred i ++ copies (parallelizer_list i).
Proof.
  intros C. unfold inferred, after. cbn [parallelizer_list is_commutative]. unfold inferred. rewrite C.
  rewrite copies_app, copies_copies, app_nil_r. reflexivity.
Qed.

(** [k] calls *)
Lemma calls_spec k : forall i ls i', is_commutative i = true -> calls k i ls i' ->
  parallelizer_list i' =
    parallelizer_list i ++ List.concat (repeat (copies (parallelizer_list i)) k) /\
  is_commutative i' = true /\
  forall m, m < k -> nth_error ls m =
    Some (parallelizer_list i ++ List.concat (repeat (copies (parallelizer_list i)) (S m))).
Proof.
  induction k as [|k IH]; intros i ls i' C H; inversion H as [|k0 i0 l0 i1 ls0 i2 H1 H3]; subst.
  - cbn. rewrite app_nil_r. repeat split; auto. intros m M. lia.
  - apply inferring_eq in H1 as [-> ->].
    assert (E : copies (inferred i) = copies (parallelizer_list i)).
    { unfold inferred. rewrite C, copies_app, copies_copies. apply app_nil_r. }
    destruct (IH (after i) ls0 i' C H3) as (A & B & D).
    cbn [after parallelizer_list] in A, D. rewrite E in A, D.
    unfold inferred in A, D. rewrite C in A, D.
    split; [|split; [exact B|]].
    + rewrite A. cbn [repeat List.concat]. now rewrite <- app_assoc.
    + intros [|m] M.
      * cbn. unfold inferred. rewrite C, app_nil_r. reflexivity.
      * cbn [nth_error]. rewrite D by lia. cbn [repeat List.concat]. now rewrite <- app_assoc.
Qed.
Lemma calls_total k : forall i, exists ls i', calls k i ls i'.
Proof.
  induction k as [|k IH]; intros i; [exists [], i; constructor|].
  destruct (IH (after i)) as (ls & i' & H). exists (inferred i :: ls), i'. econstructor; [apply inferring_spec|exact H].
Qed.
Lemma calls_stable k : forall i ls i', (is_commutative i = false \/ copies (parallelizer_list i) = []) ->
  calls k i ls i' -> Forall (eq (parallelizer_list i)) ls /\ i' = i.
Proof.
  induction k as [|k IH]; intros i ls i' C H; inversion H as [|k0 i0 l0 i1 ls0 i2 H1 H3]; subst; [auto|].
  apply inferring_eq in H1 as [-> ->].
  assert (E : inferred i = parallelizer_list i).
  { unfold inferred. destruct C as [->| ->]; [apply app_nil_r|]. destruct (is_commutative i); apply app_nil_r. }
  assert (A : after i = i) by (unfold after; rewrite E; now destruct i).
  rewrite A in H3. destruct (IH i ls0 i' C H3) as [F ->]. split; [|reflexivity]. constructor; [now rewrite E|exact F].
Qed.
Lemma copies_nil l : copies l = [] <-> forall p, In p l -> p_splitter p <> CONSEC_CHUNKS.
Proof.
  induction l as [|p l IH]; cbn; [firstorder|]. destruct (p_splitter p) eqn:E; cbn.
  1-3: rewrite IH; split; [intros H q [<-|I]; [congruence|auto]|auto].
  split; [discriminate|]. intros H. exfalso. apply (H p); auto.
Qed.
Lemma copies_in l q : In q (copies l) -> exists p, In p l /\ p_splitter p = CONSEC_CHUNKS /\ q = unwrap p.
Proof.
  induction l as [|p l IH]; cbn; [easy|]. destruct (is_splitter_consec_chunks (p_splitter p)) eqn:E.
  - intros [<-|I].
    + exists p. repeat split; auto. destruct (p_splitter p); discriminate || reflexivity.
    + destruct (IH I) as (p' & A & B). eauto.
  - intros I. destruct (IH I) as (p' & A & B). eauto.
Qed.

(** ** Transformers *)

Lemma pyval_eqb_eq a b : pyval_eqb a b = true <-> a = b.
Proof.
  destruct a as [|v|s|[el ac]], b as [|w|t|[el' ac']]; cbn; try (split; congruence).
  - rewrite Z.eqb_eq. split; congruence.
  - rewrite String.eqb_eq. split; congruence.
  - rewrite andb_true_iff. split.
    + intros [A B]. f_equal. f_equal.
      * destruct el as [s|[]], el' as [t|[]]; cbn in A; try discriminate; try reflexivity.
        apply String.eqb_eq in A. now subst.
      * destruct ac, ac'; cbn in B; congruence.
    + intros E. injection E as <- <-. split.
      * destruct el as [s|[]]; cbn; try reflexivity. apply String.eqb_refl.
      * now destruct ac.
Qed.
Lemma fe_eqb_eq a b : fe_eqb a b = true <-> a = b /\ comparable b.
Proof.
  destruct a as [n|n x|n x], b as [m|m y|m y]; cbn; try (split; [discriminate|intros [E C]; congruence || contradiction]).
  - rewrite String.eqb_eq. split; [intros ->; auto|intros [E _]; congruence].
  - rewrite andb_true_iff, String.eqb_eq, pyval_eqb_eq. split; [intros [-> ->]; auto|intros [E _]; split; congruence].
Qed.

Lemma transform_add l adds :
  exists extra, transform (TAdd adds) l = l ++ extra /\ kept (fun x => ~ (In x l /\ comparable x)) adds extra.
Proof.
  eexists. split; [reflexivity|]. apply filter_kept. intros x. rewrite negb_true_iff. split.
  - intros H [I C]. enough (existsb (fun y => fe_eqb y x) l = true) by congruence.
    apply existsb_exists. exists x. split; [exact I|]. now apply fe_eqb_eq.
  - intros H. destruct (existsb _ _) eqn:E; [|reflexivity]. exfalso. apply H.
    apply existsb_exists in E as (y & I & F). apply fe_eqb_eq in F as [-> C]. auto.
Qed.
Lemma transform_chain ts : forall l, runs ts l (transform (TChain ts) l).
Proof. induction ts as [|t ts IH]; intros l; cbn; [constructor|]. constructor. apply IH. Qed.

(** Induction over nested transformers *)
Lemma transformer_ind' (P : transformer -> Prop) :
  P TSeq -> (forall l, P (TAdd l)) -> (forall l, P (TRemove l)) -> (forall l, P (TFilter l)) -> P TEmpty ->
  (forall l, P (TCustom l)) -> (forall ts, Forall P ts -> P (TChain ts)) -> forall t, P t.
Proof.
  intros A B C D E F G. fix IH 1. intros [ |l|l|l| |l|ts]; [exact A|apply B|apply C|apply D|exact E|apply F|].
  apply G. induction ts as [|t ts IHts]; constructor; [apply IH|exact IHts].
Qed.
Lemma transform_provenance t : forall l x, In x (transform t l) -> In x l \/ mentions t x.
Proof.
  induction t as [ |l|l|l| |l|ts H] using transformer_ind'; intros l0 x I.
  - auto.
  - cbn in I. apply in_app_or in I as [I|I]; [auto|]. apply filter_In in I as [I _]. now right.
  - apply filter_In in I as [I _]. auto.
  - apply filter_In in I as [I _]. auto.
  - destruct I.
  - now right.
  - cbn [transform] in I. cbn [mentions]. revert l0 I. induction H as [|t ts Ht H IH]; intros l0 I; cbn in I; [auto|].
    destruct (IH _ I) as [J|J]; [|auto]. destruct (Ht _ _ J); auto.
Qed.

Lemma sort_flags l : exists k, kept (named sort_order_flags) l k /\
  transform (TChain [TFilter sort_order_flags; TAdd [FFlag "-m"]]) l = k ++ [FFlag "-m"].
Proof.
  exists (filter (fun x => mem (fe_name x) sort_order_flags) l). split.
  - apply filter_kept. intros x. apply mem_iff.
  - cbn [transform foldl]. f_equal. cbn [filter].
    destruct (existsb _ _) eqn:E; [|reflexivity]. exfalso.
    apply existsb_exists in E as (y & I & F). apply fe_eqb_eq in F as [-> _]. apply filter_In in I as [_ I]. discriminate I.
Qed.

(** ** util.py *)
Lemma foldl_fold_left {A B} (f : A -> B -> B) l : forall acc, foldl f acc l = fold_left (fun b a => f a b) l acc.
Proof. induction l as [|x l IH]; intros acc; cbn; [reflexivity|apply IH]. Qed.

Lemma dedup_spec {A} (eqb : A -> A -> bool) : (forall x y, eqb x y = true <-> x = y) -> forall l,
  first_occ l (list_deduplication eqb l).
Proof.
  intros E l. unfold list_deduplication.
  assert (G : forall l done acc, first_occ done acc -> (forall x, In x acc <-> In x done) ->
            first_occ (done ++ l) (dedup_loop eqb acc l)).
  { clear l. induction l as [|x l IH]; intros done acc F S; cbn.
    - now rewrite app_nil_r.
    - replace (done ++ x :: l) with ((done ++ [x]) ++ l) by (rewrite <- app_assoc; reflexivity).
      destruct (existsb (fun y => eqb y x) acc) eqn:X.
      + apply existsb_exists in X as (y & I & Q). apply E in Q as ->.
        apply IH.
        * apply fo_again; [exact F|now apply S].
        * intros z. rewrite in_app_iff, S. cbn. split; [auto|intros [J|[<-|[]]]; [auto|now apply S]].
      + assert (N : ~ In x acc).
        { intros I. enough (existsb (fun y => eqb y x) acc = true) by congruence.
          apply existsb_exists. exists x. split; [exact I|now apply E]. }
        apply IH.
        * apply fo_first; [exact F|now rewrite <- S].
        * intros z. now rewrite !in_app_iff, S. }
  apply (G l [] []); [constructor|tauto].
Qed.
Lemma first_occ_facts {A} (l l' : list A) : first_occ l l' ->
  NoDup l' /\ (forall x, In x l' <-> In x l) /\ subseq l' l.
Proof.
  assert (SN : forall (a b : list A) x, subseq a b -> subseq a (b ++ [x])).
  { intros a b x S. induction S; cbn; [apply subseq_skip; constructor|now apply subseq_skip|now apply subseq_keep]. }
  assert (SK : forall (a b : list A) x, subseq a b -> subseq (a ++ [x]) (b ++ [x])).
  { intros a b x S. induction S; cbn; [apply subseq_keep; constructor|now apply subseq_skip|now apply subseq_keep]. }
  induction 1 as [|l l' x F (N & I & S) H|l l' x F (N & I & S) H].
  - repeat split; try constructor; easy.
  - repeat split; [exact N| | |now apply SN].
    + intros J. apply in_or_app. left. now apply I.
    + rewrite I, in_app_iff. intros [J|[<-|[]]]; auto.
  - repeat split; [| | |now apply SK].
    + apply (NoDup_Add (a := x) (l := l')); [|split; [exact N|now rewrite I]].
      rewrite <- (app_nil_r l') at 1. apply Add_app.
    + rewrite !in_app_iff, I. auto.
    + rewrite !in_app_iff, I. auto.
Qed.

(** The field that no generator sets *)
Lemma append_new_cat s a i i' : append_new s a i = Ok i' ->
  round_robin_compatible_with_cat i' = round_robin_compatible_with_cat i.
Proof.
  unfold append_new. destruct (make_parallelizer _ _ _ _ _) as [p|e]; cbn; [|discriminate].
  intros E. injection E as <-. reflexivity.
Qed.
Lemma generators_cat n g dir inv i i' : In (n, g) para_generator_classes -> g dir inv i = Ok i' ->
  round_robin_compatible_with_cat i' = round_robin_compatible_with_cat i.
Proof.
  assert (T : forall s a s' a', (let! j := append_new s a i in append_new s' a' j) = Ok i' ->
            round_robin_compatible_with_cat i' = round_robin_compatible_with_cat i).
  { intros s a s' a' H. destruct (append_new s a i) as [j|e] eqn:E; cbn in H; [|discriminate].
    now rewrite (append_new_cat _ _ _ _ H), (append_new_cat _ _ _ _ E). }
  assert (St : pg_stateless dir inv i = Ok i' -> round_robin_compatible_with_cat i' = round_robin_compatible_with_cat i)
    by apply T.
  assert (So : pg_sort dir inv i = Ok i' -> round_robin_compatible_with_cat i' = round_robin_compatible_with_cat i).
  { unfold pg_sort. destruct (contains_one_of _ _); intros H; [injection H as <-; reflexivity|].
    now rewrite (append_new_cat _ _ _ _ H). }
  assert (Te : pg_test dir inv i = Ok i' -> round_robin_compatible_with_cat i' = round_robin_compatible_with_cat i)
    by apply append_new_cat.
  intros I. cbn [para_generator_classes In] in I.
  repeat match type of I with _ \/ _ => destruct I as [I|I] end; try contradiction; injection I as <- <-; auto.
  - unfold pg_alt_bigrams_aux. destruct (make_mapper_spec_custom_from_string _ _ _); cbn; [|discriminate].
    intros E. injection E as <-. reflexivity.
  - unfold pg_bigrams_aux. destruct (make_mapper_spec_custom_from_string _ _ _); cbn; [|discriminate].
    intros E. injection E as <-. reflexivity.
  - unfold pg_grep. destruct (negb _); [|intros E; injection E as <-; reflexivity].
    destruct (grep_cases inv) as [[[m a] f]|e]; cbn [bind]; [|discriminate]. destruct (_ && _); [|intros E; injection E as <-; reflexivity].
    destruct (make_parallelizer CONSEC_CHUNKS _ _ _ _); cbn [bind]; [|discriminate].
    destruct (make_parallelizer ROUND_ROBIN_PLAIN _ _ _ _); cbn [bind]; [|discriminate].
    intros E. injection E as <-. reflexivity.
  - unfold pg_sed. destruct (or_else _ _) as [[]|e]; cbn [bind]; [|intros E; injection E as <-; reflexivity|discriminate].
    apply T.
  - apply append_new_cat.
  - unfold pg_tr. destruct (and_then _ _) as [d|e]; cbn [bind]; [|discriminate].
    destruct (and_then (Ok (contains_one_of inv ["-s"])) _) as [s|e]; cbn [bind]; [|discriminate].
    destruct d; [apply T|]. destruct s; apply T.
  - unfold pg_uniq. destruct (negb _); [|intros E; injection E as <-; reflexivity].
    destruct (contains_one_of inv ["-c"]); [|apply T].
    destruct (make_parallelizer CONSEC_CHUNKS _ _ _ _); cbn [bind]; [|discriminate].
    destruct (make_parallelizer ROUND_ROBIN_PLAIN _ _ _ _); cbn [bind]; [|discriminate].
    intros E. injection E as <-. reflexivity.
Qed.
Lemma info_cat dir inv i : get_parallelizability_info dir inv = Some i -> round_robin_compatible_with_cat i = false.
Proof.
  unfold get_parallelizability_info, dict_get.
  destruct (dict_find para_generator_classes _) as [g|] eqn:E; [|discriminate]. cbn [bind].
  apply dict_find_In' in E. destruct (g dir inv new_para_info) as [j|e] eqn:G; cbn; [|discriminate].
  intros H. injection H as <-. now rewrite (generators_cat _ _ _ _ _ _ E G).
Qed.

Lemma inferred_buildable dir inv i l i' p : get_parallelizability_info dir inv = Some i ->
  inferring i l i' -> In p l -> buildable p.
Proof.
  intros H J I. apply inferring_eq in J as [-> _].
  assert (B : forall q, In q (parallelizer_list i) -> buildable q).
  { intros q. eapply (annotated_buildable dir inv _ (is_commutative i)). apply annotated_iff. now rewrite H. }
  unfold inferred in I. apply in_app_or in I as [I|I]; [auto|]. destruct (is_commutative i); [|destruct I].
  apply copies_in in I as (q & Iq & _ & ->). apply build_unwrap. auto.
Qed.
Lemma calls_buildable k : forall i ls i', (forall p, In p (parallelizer_list i) -> buildable p) -> calls k i ls i' ->
  forall l p, In l ls -> In p l -> buildable p.
Proof.
  induction k as [|k IH]; intros i ls i' B H; inversion H as [|k0 i0 l0 i1 ls0 i2 H1 H3]; subst; [easy|].
  apply inferring_eq in H1 as [-> ->].
  assert (B' : forall p, In p (inferred i) -> buildable p).
  { intros p I. unfold inferred in I. apply in_app_or in I as [I|I]; [auto|]. destruct (is_commutative i); [|destruct I].
    apply copies_in in I as (q & Iq & _ & ->). apply build_unwrap. auto. }
  intros l p [<-|I]; [apply B'|]. now apply (IH (after i) ls0 i').
Qed.
