(** * C92: the table of reductions *)
From Coq Require Import Lia.
Require Import Verif.PyBase Verif.JsonData Verif.Parser Verif.Access Verif.IOInfo Verif.IOVars
  Verif.Transformers Verif.ParaTypes Verif.ParaGen Verif.MapperAgg Verif.SpecLists Verif.SpecVars Verif.SpecPara Verif.SpecMapper
  Verif.ListFacts Verif.SpecSem Verif.SemFacts Verif.SemSystem Verif.SemRun Verif.SemProps Verif.SemProps2 Verif.SpecSem3 Verif.SemProps3 Verif.SpecSem4 Verif.SpecSem6 Verif.SpecSem10 Verif.SemProps10
  Verif.SpecSem11 Verif.SemProps11 Verif.SpecIO Verif.ShippedData Verif.PipeFacts Verif.P_Sem Verif.P_Sem6 Verif.SpecCustom Verif.CustomFacts Verif.P_Custom
  Verif.SpecStateless Verif.P_Stateless Verif.SpecTable.

(** ** Plans *)
Lemma reduced_pieces f F : (forall a b, ends_line a -> f (F a) (F b) = F (a +++ b)) ->
  forall ls, ls <> [] -> Forall (fun l => l <> []) ls -> Forall ends_line (removelast (List.concat ls)) ->
  combine_pairs f (map (fun l => F (joined l)) ls) = F (joined (List.concat ls)).
Proof.
  intros H ls NE. destruct ls as [|l ls]; [congruence|]. cbn [map combine_pairs List.concat]. clear NE.
  revert l. induction ls as [|l' ls IH]; intros l N P; cbn [map fold_left List.concat]; [now rewrite app_nil_r|].
  inversion N as [|? ? N1 N2]; subst. inversion N2 as [|? ? N3 N4]; subst.
  cbn [List.concat] in P. rewrite app_assoc in P |- *. rewrite <- IH; [|constructor; [|exact N4]|exact P].
  - f_equal. rewrite joined_app. apply pieces_app in P as (P & _). apply pieces_app in P as (_ & _ & [P|X]); [|contradiction].
    apply H. now apply ends_joined.
  - destruct l; [congruence|discriminate].
Qed.
Lemma parts_some t : arity (fun n => n <> 0) t -> parts t <> [].
Proof.
  induction t as [x y sd|o sd ts IH] using plan_rect'; [discriminate|]. intros (N & A). apply arity_children in A. destruct ts as [|t ts]; [cbn in N; congruence|].
  inversion IH; subst. inversion A; subst. cbn [parts flat_map]. intros E. apply app_eq_nil in E as (E & _). now apply H1.
Qed.
Lemma reduced_plan B k c i s f (F : string -> string) : reads_one c i ->
  (forall a b, ends_line a -> f (F a) (F b) = F (a +++ b)) ->
  (forall seed x, B seed (v_cmd c) (map (wflag_of c s) (v_flags c)) (map (word_of c s) (v_ops c)) [x] = F x) ->
  forall t, fresh_plan c t -> arity (fun n => n <> 0) t -> Forall ends_line (removelast (map s (parts t))) ->
  pairs_evaluates B (in_chunks k) c s f t (F (joined (map s (parts t)))).
Proof.
  intros R H HB. induction t as [x y seed|o seed ts IH] using plan_rect'; intros FR AR P.
  - destruct FR as (ND & FR). cbn in *. inversion ND as [|? ? Ni _]; subst.
    destruct (mapper_run (in_chunks k) c i x y R eq_refl eq_refl) as (m & G & W & E); [intros ->; apply Ni; now left|apply FR; now left|apply FR; right; now left|].
    rewrite append_nil, <- (HB seed), <- E. now constructor.
  - pose proof (fresh_children _ _ _ _ FR) as FC. destruct AR as (NE & AR). apply arity_children in AR. cbn [parts] in *.
    assert (E : map s (flat_map parts ts) = List.concat (map (fun t => map s (parts t)) ts)).
    { clear. induction ts; cbn; [reflexivity|]. now rewrite map_app, IHts. }
    rewrite E in *. assert (NT : map (fun t => map s (parts t)) ts <> []) by (intros Z; apply NE; destruct ts; [reflexivity|discriminate Z]).
    assert (NN : Forall (fun l => l <> []) (map (fun t => map s (parts t)) ts)).
    { apply Forall_forall. intros l J. apply in_map_iff in J as (t & <- & J). rewrite Forall_forall in AR. intros Z. apply map_eq_nil in Z. now apply (parts_some t) in Z; auto. }
    rewrite <- (reduced_pieces f F H _ NT NN P). rewrite map_map. constructor.
    apply pairs_all. clear E FR NE NT NN. rewrite Forall_forall in IH, FC, AR |- *. intros t I. apply IH; auto; clear IH FC AR.
    induction ts as [|t' ts IHts]; [destruct I|]. cbn in P. apply pieces_app in P as (P1 & P2 & _). destruct I as [<-|I]; auto.
Qed.
Section TwoLeaves.
  Variables (B : behaviour) (k : agg_spec) (c : civ) (i : Z) (s : store) (sd : nat) (a b : string).
  Hypothesis R : reads_one c i.
  Hypothesis T : tight c.
  Let F x := B sd (v_cmd c) (map (wflag_of c s) (v_flags c)) (map (word_of c s) (v_ops c)) [x].
  Lemma two_leaves : ends_line a ->
    exists s' t, fresh_plan c t /\ arity (fun n => n <> 0) t /\ distributes CONSEC_CHUNKS (s' i) (map s' (parts t)) /\ s' i = a +++ b /\
    (map (wflag_of c s') (v_flags c) = map (wflag_of c s) (v_flags c) /\ map (word_of c s') (v_ops c) = map (word_of c s) (v_ops c)) /\
    forall f, pairs_evaluates B (in_chunks k) c s' f t (f (F a) (F b)).
  Proof.
    intros EA. destruct (fresh_vars c i T) as (z & Z1 & Z2).
    set (s' := connect [i; z; z + 1]%Z [a +++ b; a; b] s).
    set (t := Node (z + 4)%Z 0 [Leaf z (z + 2)%Z sd; Leaf (z + 1)%Z (z + 3)%Z sd]).
    assert (Si : s' i = a +++ b) by (unfold s'; cbn; now rewrite Z.eqb_refl).
    assert (S1 : s' z = a).
    { unfold s'; cbn. destruct (Z.eqb_spec z i); [lia|]. now rewrite Z.eqb_refl. }
    assert (S2 : s' (z + 1)%Z = b).
    { unfold s'; cbn -[Z.add]. destruct (Z.eqb_spec (z + 1) i); [lia|]. destruct (Z.eqb_spec (z + 1) z); [lia|]. now rewrite Z.eqb_refl. }
    assert (W : map (wflag_of c s') (v_flags c) = map (wflag_of c s) (v_flags c) /\ map (word_of c s') (v_ops c) = map (word_of c s) (v_ops c)).
    { apply (words_only c i s' s R). intros v J N. apply connect_out. intros [E|[E|[E|[]]]]; [now apply N| |]; apply (Z2 v); auto; lia. }
    exists s', t. split; [|split; [|split; [|split; [exact Si|split; [exact W|]]]]].
    - split; [cbn; repeat constructor; cbn; lia|]. intros v J. apply Z2. cbn in J. lia.
    - cbn. auto.
    - cbn [parts t flat_map map app]. rewrite Si, S1, S2.
      split; [cbn; now rewrite append_nil|apply (Forall_cons a EA), Forall_nil].
    - intros f. destruct W as (W1 & W2).
      assert (X : forall x y, x <> y -> (z <= x)%Z -> (z <= y)%Z -> exists m, get_actual_mapper (in_chunks k) c x y [] = Ok (Some m) /\ writes m y /\
        run B sd m s' = F (s' x)).
      { intros x y N L1 L2. destruct (mapper_run (in_chunks k) c i x y R eq_refl eq_refl N (Z2 x L1) (Z2 y L2)) as (m & G & W & Rm). exists m. split; [exact G|].
        split; [exact W|]. rewrite Rm, W1, W2. reflexivity. }
      destruct (X z (z + 2)%Z) as (m1 & G1 & V1 & R1); [lia..|]. destruct (X (z + 1)%Z (z + 3)%Z) as (m2 & G2 & V2 & R2); [lia..|].
      rewrite S1 in R1. rewrite S2 in R2. rewrite <- R1, <- R2.
      change (pairs_evaluates B (in_chunks k) c s' f t (combine_pairs f [run B sd m1 s'; run B sd m2 s'])).
      repeat (constructor; auto).
  Qed.
  Lemma one_leaf : exists s' t, fresh_plan c t /\ arity (fun n => n <> 0) t /\ distributes CONSEC_CHUNKS (s' i) (map s' (parts t)) /\ s' i = a /\
    (map (wflag_of c s') (v_flags c) = map (wflag_of c s) (v_flags c) /\ map (word_of c s') (v_ops c) = map (word_of c s) (v_ops c)) /\
    forall f, pairs_evaluates B (in_chunks k) c s' f t (F a).
  Proof.
    destruct (fresh_vars c i T) as (z & Z1 & Z2). set (s' := connect [i; z]%Z [a; a] s). set (t := Leaf z (z + 1)%Z sd).
    assert (Si : s' i = a) by (unfold s'; cbn; now rewrite Z.eqb_refl).
    assert (S1 : s' z = a) by (unfold s'; cbn; destruct (Z.eqb_spec z i); [lia|]; now rewrite Z.eqb_refl).
    assert (W : map (wflag_of c s') (v_flags c) = map (wflag_of c s) (v_flags c) /\ map (word_of c s') (v_ops c) = map (word_of c s) (v_ops c)).
    { apply (words_only c i s' s R). intros v J N. apply connect_out. intros [E|[E|[]]]; [now apply N|]; apply (Z2 v); auto; lia. }
    exists s', t. split; [|split; [exact I|split; [|split; [exact Si|split; [exact W|]]]]].
    - split; [cbn; repeat constructor; cbn; lia|]. intros v J. apply Z2. cbn in J. lia.
    - cbn [parts t flat_map map app]. rewrite Si, S1. split; [cbn; now rewrite append_nil|constructor].
    - intros f. destruct (mapper_run (in_chunks k) c i z (z + 1)%Z R eq_refl eq_refl ltac:(lia) (Z2 z ltac:(lia)) (Z2 (z + 1)%Z ltac:(lia))) as (m & G & V & Rm).
      destruct W as (W1 & W2). specialize (Rm B sd s'). rewrite W1, W2, S1 in Rm. fold (F a) in Rm. rewrite <- Rm. now constructor.
  Qed.
End TwoLeaves.
(** For any command: plans that combine two results at a time with [g] print what the command prints exactly if
    chance plays no role and the output for a text is [g] of the outputs for its parts. *)
Theorem C92_plans_iff : forall k c i B g, reads_one c i -> tight c -> by_words c g ->
  reduced_ok B (in_chunks k) c i g <->
  (forall s sd sd' x, run B sd c (put i x s) = run B sd' c (put i x s)) /\ row_right B c i g.
Proof.
  intros k c i B g R T BW. split.
  - intros OK. assert (ST : forall s sd sd' x, run B sd c (put i x s) = run B sd' c (put i x s)).
    { intros s sd sd' x. destruct (one_leaf B k c i s sd x R T) as (s' & t & FR & AR & D & Si & (W1 & W2) & E).
      pose proof (pairs_fun_eq _ _ _ _ _ _ _ _ (E (g s')) (OK s' t sd' FR AR D)) as X.
      rewrite (run_original B sd' c i s' R), W1, W2, Si in X. now rewrite !(put_run _ _ _ _ _ _ R). }
    split; [exact ST|]. intros s sd x y EX. destruct (two_leaves B k c i s sd x y R T EX) as (s' & t & FR & AR & D & Si & (W1 & W2) & E).
    pose proof (pairs_fun_eq _ _ _ _ _ _ _ _ (E (g s')) (OK s' t sd FR AR D)) as X.
    rewrite (run_original B sd c i s' R), W1, W2, Si in X. rewrite (BW s' s W1 W2) in X. now rewrite !(put_run _ _ _ _ _ _ R).
  - intros (ST & RR) s t seed FR AR (E & X).
    pose proof (put_run B seed c i s (s i) R) as P0. rewrite (run_original B seed c i s R), <- P0, E.
    apply (reduced_plan B k c i s (g s) (fun x => run B seed c (put i x s)) R); auto.
    + intros a b EA. symmetry. now apply RR.
    + intros sd x. rewrite <- (put_run _ _ _ _ _ _ R). apply ST.
Qed.
Print Assumptions C92_plans_iff.
(** The entries depend on the words only. *)
Lemma entries_by_words B sd c i o u : reads_one c i ->
  by_words c g_append /\ by_words c g_backwards /\ by_words c g_first /\ by_words c (g_again B sd c i) /\ by_words c (g_sum o) /\ by_words c (g_merge B sd c) /\ by_words c (g_counts u c).
Proof.
  intros R. repeat split; intros s s' W1 W2 x y; try reflexivity.
  - unfold g_again, adjacent_lines, one_stream. destruct (rev (raw_lines x)), (raw_lines y); try reflexivity. now rewrite !(put_run _ _ _ _ _ _ R), W1, W2.
  - unfold g_merge. now rewrite W1.
  - unfold g_counts. now rewrite W1.
Qed.

(** ** cat, rev and tac
    The entry of rev is the one for tac. *)
Theorem C92_rev_refuted : forall c i B, reads_one c i -> v_flags c = [] -> v_ops c = [] ->
  (v_cmd c = "cat" -> is_cat B -> row_right B c i g_append) /\
  (v_cmd c = "rev" -> is_rev B -> row_right B c i g_append /\ ~ row_right B c i g_backwards) /\
  (v_cmd c = "tac" -> is_tac B -> row_right B c i g_backwards /\ ~ row_right B c i g_append).
Proof.
  intros c i B R NF NO.
  assert (X : forall s sd x, run B sd c (put i x s) = B sd (v_cmd c) [] [] [x]) by (intros s sd x; now rewrite (put_run B _ c i s _ R), NO, NF).
  set (a := String "a" (String newline "")). set (b := String "b" (String newline "")).
  assert (EA : ends_line a) by (right; now exists "a").
  split; [|split]; intros C D.
  - intros s sd x y _. rewrite !X, C. rewrite !D by discriminate. unfold g_append. cbn. now rewrite !append_nil.
  - split.
    + intros s sd x y EX. rewrite !X, C, !D, (full_app _ _ EX), map_app. apply joined_app.
    + intros H. specialize (H (fun _ => "") 0 a b EA). rewrite !X, C, !D in H. vm_compute in H. discriminate.
  - split.
    + intros s sd x y EX. rewrite !X, C, !D, (full_app _ _ EX), rev_app_distr. apply joined_app.
    + intros H. specialize (H (fun _ => "") 0 a b EA). rewrite !X, C, !D in H. vm_compute in H. discriminate.
Qed.
Print Assumptions C92_rev_refuted.

(** ** tr *)
Lemma tr_words text inv c s o B : parse shipped_dir text = Ok inv -> cmd_name inv = "tr" -> invocation_of inv c -> is_tr o B ->
  forall sd x, B sd (v_cmd c) (map (wflag_of c s) (v_flags c)) (map (word_of c s) (v_ops c)) [x] = tr_output o (map (wflag_of c s) (v_flags c)) (map (word_of c s) (v_ops c)) x.
Proof.
  intros PA C IN TB sd x. assert (CN : v_cmd c = "tr") by (destruct IN as (-> & _); exact C). rewrite CN. apply TB.
  eapply parse_known; eauto; [rewrite C; left; vm_compute; reflexivity|vm_compute; reflexivity].
Qed.
Lemma squeeze_none q x : (forall a, q a = false) -> squeeze q x = x.
Proof. intros Q. unfold squeeze. generalize (@None ascii). induction x as [|a x IH]; intros b; [reflexivity|]. cbn [squeeze_from]. rewrite Q. cbn [andb]. now rewrite IH. Qed.
(** Without -s *)
Theorem C92_tr : forall text inv c v B o,
  parse shipped_dir text = Ok inv -> cmd_name inv = "tr" -> invocation_of inv c -> reads_one c v -> is_tr o B ->
  ~ uses_any inv ["-s"; "--help"; "--version"] -> row_right B c v g_append.
Proof.
  intros text inv c v B o PA C IN R TB NU s sd x y _. rewrite !(put_run _ _ _ _ _ _ R), !(tr_words text inv c s o B PA C IN TB).
  unfold tr_output, g_append. rewrite (given_unused inv c s ["--help"; "--version"]); [|exact IN|eapply unused_sub; [exact NU|]; intros z; cbn; tauto].
  rewrite !squeeze_none; [now rewrite keep_chars_app, map_chars_app|..];
    intros a; unfold tr_squeezes; (rewrite (given_unused inv c s ["-s"]); [reflexivity|exact IN|eapply unused_sub; [exact NU|]; intros z; cbn; tauto]).
Qed.
Print Assumptions C92_tr.
Fixpoint all_chars (P : ascii -> Prop) (x : string) : Prop := match x with "" => True | String a x' => P a /\ all_chars P x' end.
Lemma all_app P x y : all_chars P (x +++ y) <-> all_chars P x /\ all_chars P y.
Proof. induction x as [|a x IH]; cbn; tauto. Qed.
Lemma all_squeeze P q x : all_chars P x -> all_chars P (squeeze q x).
Proof.
  unfold squeeze. generalize (@None ascii). induction x as [|a x IH]; intros b; [trivial|]. cbn [all_chars squeeze_from]. intros (A & X).
  destruct (q a && _); [now apply IH|]. split; [exact A|now apply IH].
Qed.
Lemma all_raw P x : all_chars P x -> Forall (all_chars P) (raw_lines x).
Proof.
  induction x as [|a x IH]; [constructor|]. cbn [all_chars raw_lines]. intros (A & X). specialize (IH X). destruct (Ascii.eqb a newline).
  - constructor; [cbn; auto|exact IH].
  - destruct (raw_lines x) as [|l ls]; [repeat constructor; exact A|]. inversion IH; subst. constructor; [split; assumption|assumption].
Qed.
Lemma fixed_same p f x : all_chars (fun a => p a = true /\ f a = a) x -> map_chars f (keep_chars p x) = x.
Proof. induction x as [|a x IH]; [reflexivity|]. cbn. intros ((A & F) & X). rewrite A. cbn. now rewrite F, IH. Qed.
Lemma adjacent_ext f g x y : (forall a b, In a (raw_lines x) -> In b (raw_lines y) -> f a b = g a b) -> adjacent_lines f x y = adjacent_lines g x y.
Proof.
  intros H. unfold adjacent_lines. destruct (rev (raw_lines x)) as [|a before] eqn:E; [reflexivity|]. destruct (raw_lines y) as [|b after]; [reflexivity|].
  rewrite H; [reflexivity| |now left]. rewrite <- (rev_involutive (raw_lines x)), E. apply -> in_rev. now left.
Qed.
(** With -s or without, the entry is right exactly if tr changes no character that it writes. *)
Theorem C92_tr_s_iff : forall text inv c v B o sd,
  parse shipped_dir text = Ok inv -> cmd_name inv = "tr" -> invocation_of inv c -> reads_one c v -> is_tr o B ->
  ~ uses_any inv ["--help"; "--version"] ->
  row_right B c v (g_again B sd c v) <->
  forall s a, let fl := map (wflag_of c s) (v_flags c) in let ops := map (word_of c s) (v_ops c) in
    tr_image o fl ops (tr_image o fl ops a) = tr_image o fl ops a.
Proof.
  intros text inv c v B o sd PA C IN R TB NU.
  assert (X : forall s sd x, run B sd c (put v x s) = tr_output o (map (wflag_of c s) (v_flags c)) (map (word_of c s) (v_ops c)) x).
  { intros s sd' x. rewrite (put_run _ _ _ _ _ _ R). now apply (tr_words text inv). }
  assert (GH : forall s, given (map (wflag_of c s) (v_flags c)) ["--help"; "--version"] = false) by (intros s; now apply (given_unused inv)).
  split.
  - intros H s a fl ops. set (f := tr_image o fl ops).
    destruct (given fl ["-d"]) eqn:D.
    { unfold f, tr_image. destruct ops as [|[] [|[] []]]; rewrite ?D; reflexivity. }
    assert (Y : forall e, squeeze (tr_squeezes o fl ops) (String (f newline) (String (f e) "")) = squeeze (tr_squeezes o fl ops) (String (f (f newline)) (String (f (f e)) ""))).
    { intros e. specialize (H s 0 (String newline "") (String e "") ltac:(right; now exists "")). unfold g_again in H. rewrite !X in H. fold fl ops in H.
      rewrite (adjacent_ext _ (one_stream (tr_output o fl ops))) in H by (intros; unfold one_stream; apply X).
      rewrite !tr_plain in H by (try apply GH; exact D). fold f in H. cbn [String.append map_chars] in H. rewrite H. 
      assert (R1 : forall z, squeeze (tr_squeezes o fl ops) (String z "") = String z "") by (intros z; unfold squeeze; cbn [squeeze_from]; now rewrite andb_false_r).
      rewrite !R1. unfold adjacent_lines. cbn [raw_lines]. unfold one_stream.
      destruct (Ascii.eqb (f newline) newline), (Ascii.eqb (f e) newline); cbn [rev app joined fold_right String.append]; rewrite append_nil, tr_plain by (try apply GH; exact D); reflexivity. }
    clear H. unfold squeeze in Y. cbn [squeeze_from] in Y.
    pose proof (Y a) as Y1. rewrite !andb_false_r in Y1. injection Y1 as E1 E2. rewrite <- E1 in E2.
    destruct (tr_squeezes o fl ops (f a) && Ascii.eqb (f a) (f newline)) eqn:Q1.
    + apply andb_true_iff in Q1 as (_ & Q1). apply Ascii.eqb_eq in Q1. rewrite Q1. congruence.
    + destruct (tr_squeezes o fl ops (f (f a)) && Ascii.eqb (f (f a)) (f newline)); [discriminate|]. injection E2 as E2. now symmetry.
  - intros H s sd' x y EX. unfold g_again. rewrite !X. specialize (H s). set (fl := map (wflag_of c s) (v_flags c)) in *. set (ops := map (word_of c s) (v_ops c)) in *.
    specialize (GH s). fold fl in GH. cbv zeta in H. set (f := tr_image o fl ops) in *. set (p := fun a => negb (tr_deletes o fl ops a)).
    assert (FX : forall z, all_chars (fun a => p a = true /\ f a = a) (tr_output o fl ops z)).
    { intros z. unfold tr_output. rewrite GH. apply all_squeeze. fold f p. induction z as [|a z IH]; [exact I|]. cbn [keep_chars]. destruct (p a) eqn:PA'; [|exact IH].
      cbn [map_chars all_chars]. split; [|exact IH]. split; [|apply H]. destruct (given fl ["-d"]) eqn:D.
      - replace (f a) with a; [exact PA'|]. unfold f, tr_image. destruct ops as [|[] [|[] []]]; rewrite ?D; reflexivity.
      - unfold p, tr_deletes. rewrite D. destruct ops as [|[] ?]; reflexivity. }
    rewrite <- (tr_again o fl ops) by exact GH. symmetry. apply adjacent_ext. intros a b JA JB. unfold one_stream. rewrite X. fold fl ops.
    unfold tr_output, squeeze_again. rewrite GH. fold f p. rewrite fixed_same; [reflexivity|]. apply all_app.
    split; [apply (proj1 (Forall_forall _ _) (all_raw _ _ (FX x)) a JA)|apply (proj1 (Forall_forall _ _) (all_raw _ _ (FX y)) b JB)].
Qed.
Print Assumptions C92_tr_s_iff.

(** ** uniq *)
Lemma no_group fl : given fl ["--group"] = false -> group_method fl = None.
Proof.
  unfold group_method. generalize (@None string). intros r H. induction fl as [|f fl IH]; [reflexivity|].
  unfold given in H. cbn [existsb] in H. apply orb_false_iff in H as (N & H). cbn [fold_left].
  replace (match f with WOption "--group" (WText m) => Some m | _ => r end) with r; [now apply IH|].
  destruct f as [n|n w]; [reflexivity|]. cbn in N. rewrite orb_false_r in N. apply String.eqb_neq in N.
  destruct (String.eqb_spec n "--group") as [->|]; [congruence|].
  repeat (match goal with |- context [match ?e with _ => _ end] => destruct e end; try reflexivity; try congruence).
Qed.
Theorem C92_uniq : forall text inv c v B o sd,
  parse shipped_dir text = Ok inv -> cmd_name inv = "uniq" -> invocation_of inv c -> reads_one c v -> is_uniq o B ->
  ~ uses_any inv ["-"; "-c"; "-d"; "-D"; "--all-repeated"; "-u"; "-z"; "--group"; "--help"; "--version"] ->
  row_right B c v (g_again B sd c v).
Proof.
  intros text inv c v B o sd PA C IN R UB NU s sd' x y EX.
  assert (N : forall l, incl l ["-"; "-c"; "-d"; "-D"; "--all-repeated"; "-u"; "-z"; "--group"; "--help"; "--version"] -> ~ uses_any inv l) by (intros l L (n & J & U); apply NU; exists n; auto).
  set (fl := map (wflag_of c s) (v_flags c)).
  assert (NB : ~ uniq_bad fl).
  { intros [G|(m & G & _)].
    - unfold fl in G. rewrite (given_unused inv) in G; [discriminate|exact IN|apply N; intros z; cbn; tauto].
    - rewrite no_group in G; [discriminate|]. apply (given_unused inv); [exact IN|apply N; intros z; cbn; tauto]. }
  assert (X : forall sd x, run B sd c (put v x s) = unlines (uniq_out (uniq_same o fl) false (lines x))).
  { intros sd1 z. rewrite (put_run _ _ _ _ _ _ R).
    rewrite (uniq_run text inv c s o B PA C IN); [| | | | |exact UB].
    - fold fl. rewrite uniq_plain by exact NB. rewrite no_group; [reflexivity|]. apply (given_unused inv); [exact IN|apply N; intros w; cbn; tauto].
    - apply N. intros w; cbn; tauto.
    - intros U. apply NU. exists "-". split; [now left|exact U].
    - intros U. apply NU. exists "-c". split; [cbn; tauto|exact U].
    - intros (U & _). apply NU. exists "-u". split; [cbn; tauto|exact U]. }
  unfold g_again. rewrite !X. rewrite (adjacent_ext _ (one_stream (fun z => unlines (uniq_out (uniq_same o fl) false (lines z))))) by (intros; unfold one_stream; apply X).
  rewrite adjacent_same by apply unlines_ends. symmetry. apply uniq_adjacent; [apply UB|exact EX].
Qed.
Print Assumptions C92_uniq.
(** With -d: no function of the two outputs is right. *)
Theorem C92_uniq_d_refuted : forall inv c i B o s a b g,
  cmd_name inv = "uniq" -> Forall (fun fo => In (fo_name fo) uniq_names) (flag_option_list inv) -> invocation_of inv c ->
  ~ uses_any inv ["-u"; "-D"; "--all-repeated"; "--group"; "--help"; "--version"; "-z"] -> uses inv "-d" ->
  reads_one c i -> is_counting_uniq o B ->
  has_char newline a = false -> has_char newline b = false -> uniq_same o (map (wflag_of c s) (v_flags c)) a b = false ->
  ~ row_right B c i g.
Proof.
  intros inv c i B o s a b g C KN IN NU UD R (EQ & UN) HA HB AB H.
  set (fl := map (wflag_of c s) (v_flags c)) in *.
  assert (NG : forall l, incl l ["-u"; "-D"; "--all-repeated"; "--group"; "--help"; "--version"; "-z"] -> given fl l = false).
  { intros l L. apply (given_unused inv); [exact IN|]. intros (n & J & U). apply NU. exists n. auto. }
  assert (GD : given fl ["-d"] = true) by (unfold fl; rewrite (given_uses inv) by exact IN; exists "-d"; split; [now left|exact UD]).
  assert (X : forall l sd, Forall (fun r => has_char newline r = false) l ->
    run B sd c (put i (unlines l) s) = unlines (map (shown_block fl) (filter (selected fl) (blocks (uniq_same o fl) l)))).
  { intros l sd L. rewrite (put_run _ _ _ _ _ _ R), (proj1 IN), C. fold fl. rewrite UN.
    - unfold uniq_lines. rewrite (NG ["--help"; "--version"]), (NG ["-z"]) by (intros n; cbn; tauto). unfold unlines. now rewrite records_terminated.
    - unfold fl. now apply (names_known inv).
    - apply NG. intros n; cbn; tauto. }
  destruct (EQ fl) as (RF & _). assert (SA := RF a).
  assert (U : given fl ["-u"] = false) by (apply NG; intros n; cbn; tauto).
  pose proof (H s 0 (unlines [a]) (unlines [a]) (unlines_ends _)) as H1. pose proof (H s 0 (unlines [a]) (unlines [b]) (unlines_ends _)) as H2.
  replace (unlines [a] +++ unlines [a]) with (unlines [a; a]) in H1 by exact (terminated_app newline [a] [a]).
  replace (unlines [a] +++ unlines [b]) with (unlines [a; b]) in H2 by exact (terminated_app newline [a] [b]).
  rewrite !X in H1 by (repeat constructor; assumption). rewrite !X in H2 by (repeat constructor; assumption).
  cbn [blocks] in H1, H2. rewrite SA in H1. rewrite AB in H2. cbn [filter] in H1, H2. rewrite !selected_one, ?selected_more, GD, ?U in H1. rewrite !selected_one, GD in H2.
  cbn [negb map] in H1, H2. rewrite <- H2 in H1. destruct (shown_block fl [a; a]); discriminate H1.
Qed.
Print Assumptions C92_uniq_d_refuted.
(** With -c: adding up is right. *)
Theorem C92_uniq_c : forall inv c i B o,
  cmd_name inv = "uniq" -> Forall (fun fo => In (fo_name fo) uniq_names) (flag_option_list inv) -> invocation_of inv c ->
  ~ uses_any inv ["-d"; "-u"; "-D"; "--all-repeated"; "--group"; "--help"; "--version"; "-z"] -> uses inv "-c" ->
  reads_one c i -> is_counting_uniq o B -> row_right B c i (g_counts o c).
Proof.
  intros inv c i B o C KN IN NU UC R (EQ & UN) s sd x y EX.
  set (fl := map (wflag_of c s) (v_flags c)).
  assert (NG : forall l, incl l ["-d"; "-u"; "-D"; "--all-repeated"; "--group"; "--help"; "--version"; "-z"] -> given fl l = false).
  { intros l L. apply (given_unused inv); [exact IN|]. intros (n & J & U). apply NU. exists n. auto. }
  assert (GC : given fl ["-c"] = true) by (unfold fl; rewrite (given_uses inv) by exact IN; exists "-c"; split; [now left|exact UC]).
  assert (X : forall z, run B sd c (put i z s) = unlines (counted (uniq_same o fl) (lines z))).
  { intros z. rewrite (put_run _ _ _ _ _ _ R), (proj1 IN), C. fold fl. rewrite UN.
    - apply counted_output; try exact GC; apply NG; intros n; cbn; tauto.
    - unfold fl. now apply (names_known inv).
    - apply NG. intros n; cbn; tauto. }
  unfold g_counts. fold fl. rewrite !X. symmetry. apply count_adjacent; [apply EQ|reflexivity|exact EX].
Qed.
Print Assumptions C92_uniq_c.

(** ** wc: adding up is right exactly if the length of the longest line is not asked for. *)
Theorem C92_wc_iff : forall inv c i B o,
  cmd_name inv = "wc" -> Forall (fun fo => In (fo_name fo) wc_columns) (flag_option_list inv) -> invocation_of inv c -> v_ops c = [] ->
  reads_one c i -> is_wc o B -> (exists l, has_char newline l = false /\ wc_width o l <> 0) ->
  row_right B c i (g_sum o) <-> ~ uses inv "-L".
Proof.
  intros inv c i B o C KN IN O R W (l & L1 & L2).
  pose proof (wc_run inv c i B o C KN IN O R W) as X.
  assert (U : forall s, In "-L" (wc_asked (map (wflag_of c s) (v_flags c))) <-> uses inv "-L").
  { intros s. rewrite asked_L, (given_uses inv) by exact IN. split; [intros (n & [<-|[]] & H); exact H|]. intros H. exists "-L". split; [now left|exact H]. }
  assert (AG : forall s s' x y, g_sum o s' (wc_show o (map (wc_number o x) (wc_asked (map (wflag_of c s) (v_flags c))))) (wc_show o (map (wc_number o y) (wc_asked (map (wflag_of c s) (v_flags c))))) =
    wc_show o (map (fun n => wc_number o x n + wc_number o y n) (wc_asked (map (wflag_of c s) (v_flags c))))).
  { intros s s' x y. unfold g_sum. rewrite !(proj1 W), map_map. now rewrite column_map. }
  split.
  - intros H UL. set (x := unlines [l]). set (s := fun _ : Z => "").
    specialize (H s 0 x x (unlines_ends _)). rewrite !X, AG in H.
    apply (f_equal (wc_read o)) in H. rewrite !(proj1 W) in H. apply (U s) in UL.
    pose proof (ext_in_map H "-L" UL) as E. rewrite wc_number_app in E by (try apply unlines_ends; cbn; auto 6). cbn [String.eqb Ascii.eqb Bool.eqb wc_number] in E.
    unfold x in E. assert (LX : lines (unlines [l]) = [l]) by (apply records_terminated; repeat constructor; exact L1). rewrite LX in E. cbn in E. lia.
  - intros NU s sd x y EX. rewrite !X, AG. f_equal. apply map_ext_in. intros n J.
    rewrite wc_number_app by (try exact EX; now apply (asked_columns _ _ J)). destruct (String.eqb_spec n "-L") as [->|]; [|reflexivity].
    exfalso. apply NU. now apply (U s).
Qed.
Print Assumptions C92_wc_iff.

(** ** sort *)
Definition sort_others : list string := ["--help"; "--version"; "--debug"; "-o"; "--files0-from"; "-c"; "-C"; "-z"; "-m"; "-u"; "-s"].
Section Sort.
  Variables (text : string) (inv : invocation) (c : civ) (v : Z) (B : behaviour) (o : sort_oracle) (s : store).
  Hypothesis PA : parse shipped_dir text = Ok inv.
  Hypothesis C : cmd_name inv = "sort".
  Hypothesis IN : invocation_of inv c.
  Hypothesis SB : is_sort o B.
  Hypothesis NU : ~ uses_any inv sort_others.
  Let fl := map (wflag_of c s) (v_flags c).
  Lemma sort_gone l : incl l sort_others -> given fl l = false.
  Proof. intros L. apply (given_unused inv); [exact IN|]. intros (n & J & U). apply NU. exists n. auto. Qed.
  Lemma sort_known : known sort_names fl.
  Proof. eapply parse_known; eauto; [rewrite C; left; vm_compute; reflexivity|vm_compute; reflexivity]. Qed.
  Lemma sort_one sd x : B sd (v_cmd c) fl (map (word_of c s) (v_ops c)) [x] = unlines (sort_lines (line_le o sd fl) (lines x)).
  Proof.
    assert (CN : v_cmd c = "sort") by (destruct IN as (-> & _); exact C). rewrite CN, SB; [|apply sort_known|apply sort_gone; intros n; cbn; tauto].
    unfold sort_output. rewrite !sort_gone by (intros n; cbn; tauto). cbn [flat_map]. now rewrite app_nil_r.
  Qed.
End Sort.
(** Merging the results with sort -m and the same flags is right if chance plays no role. *)
Theorem C92_sort : forall text inv c v B o sd0,
  parse shipped_dir text = Ok inv -> cmd_name inv = "sort" -> invocation_of inv c -> reads_one c v -> is_sort o B -> sort_oracle_ok o ->
  ~ uses_any inv ["--help"; "--version"; "--debug"; "-o"; "--files0-from"; "-c"; "-C"; "-z"; "-m"; "-u"; "-s"] ->
  (forall s seed seed', key_le o seed (map (wflag_of c s) (v_flags c)) = key_le o seed' (map (wflag_of c s) (v_flags c))) ->
  row_right B c v (g_merge B sd0 c).
Proof.
  intros text inv c v B o sd0 PA C IN R SB (OK1 & OK2) NU SEED s sd x y EX. rewrite !(put_run _ _ _ _ _ _ R).
  rewrite !(sort_one text inv c B o s PA C IN SB NU). unfold g_merge. set (fl := map (wflag_of c s) (v_flags c)).
  assert (GN : forall l, incl l sort_others -> given fl l = false) by (intros l L; now apply (sort_gone inv c s IN NU)).
  set (fl' := fl ++ [WFlag "-m"]).
  assert (GV : forall l, incl l sort_others -> given fl' l = given [WFlag "-m"] l) by (intros l L; unfold fl'; now rewrite given_app, (GN l L)).
  rewrite SB.
  2: { unfold known, fl'. apply Forall_app. split; [apply (sort_known text inv c s PA C IN)|constructor; [cbn; auto 20|constructor]]. }
  2: { rewrite GV by (intros n; cbn; tauto). reflexivity. }
  set (le := line_le o sd fl).
  assert (OF : filter (fun f => mem (wflag_name f) ordering_flags) fl' = filter (fun f => mem (wflag_name f) ordering_flags) fl) by (unfold fl'; rewrite filter_app; apply app_nil_r).
  assert (LE : line_le o sd0 fl' = le).
  { unfold le. apply line_le_ext.
    - rewrite (OK2 sd0 fl' fl OF). apply SEED.
    - rewrite GV, GN by (intros n; cbn; tauto). reflexivity.
    - unfold fl'. rewrite given_app. apply orb_false_r. }
  unfold sort_output. rewrite !GV by (intros n; cbn; tauto). cbn [given existsb wflag_name mem String.eqb Ascii.eqb Bool.eqb orb andb]. rewrite LE.
  assert (PL : given fl ["-s"; "-u"] = false) by (apply GN; intros n; cbn; tauto).
  assert (T1 : forall x y, le x y = true \/ le y x = true) by (intros; apply line_total; auto).
  assert (T2 : forall x y z, le x y = true -> le y z = true -> le x z = true) by (intros; eapply line_trans; eauto).
  assert (T3 : forall x y, le x y = true -> le y x = true -> x = y) by (intros; eapply line_antisym; eauto).
  cbn [map fold_right]. unfold unlines. rewrite !records_terminated by (apply sort_clean, records_clean).
  rewrite merge_nil_r, (merge_of_sorts le T1 T2 T3). unfold lines. now rewrite (records_app _ _ _ EX).
Qed.
Print Assumptions C92_sort.
(** The entry of sort -h, which drops the second result, is wrong for all of these flags. *)
Theorem C92_sort_h_refuted : forall text inv c v B o,
  parse shipped_dir text = Ok inv -> cmd_name inv = "sort" -> invocation_of inv c -> reads_one c v -> is_sort o B ->
  ~ uses_any inv ["--help"; "--version"; "--debug"; "-o"; "--files0-from"; "-c"; "-C"; "-z"; "-m"; "-u"; "-s"] ->
  ~ row_right B c v g_first.
Proof.
  intros text inv c v B o PA C IN R SB NU H.
  specialize (H (fun _ => "") 0 (String newline "") (String newline "") ltac:(right; now exists "")).
  rewrite !(put_run _ _ _ _ _ _ R), !(sort_one text inv c B o _ PA C IN SB NU) in H. unfold g_first in H.
  change (String newline "" +++ String newline "") with (String newline (String newline "")) in H.
  change (lines (String newline "")) with [""] in H. change (lines (String newline (String newline ""))) with [""; ""] in H.
  cbn [sort_lines insert_line] in H. destruct (line_le _ _ _ _ _); discriminate H.
Qed.
Print Assumptions C92_sort_h_refuted.

(** ** nl *)
Lemma nl_shift k ls : forall n, Forall (fun l => nl_delimiter l = None) ls ->
  nl_entries Body (k + n) ls = map (fun e => (option_map (Nat.add k) (fst e), snd e)) (nl_entries Body n ls).
Proof.
  induction ls as [|l ls IH]; intros n H; [reflexivity|]. inversion H as [|? ? D H']; subst. cbn [nl_entries]. rewrite D.
  destruct l; cbn [map fst snd option_map]; f_equal; [now apply IH|]. rewrite <- (IH (S n) H'). f_equal. lia.
Qed.
Lemma nl_last ls : forall n, Forall (fun l => nl_delimiter l = None) ls -> last_number_of (nl_entries Body (S n) ls) = 0 \/ S n <= last_number_of (nl_entries Body (S n) ls).
Proof.
  induction ls as [|l ls IH]; intros n H; [now left|]. inversion H as [|? ? D H']; subst. cbn [nl_entries]. rewrite D. destruct l; cbn [last_number_of]; [now apply IH|].
  right. destruct (IH (S n) H') as [E|E]; [rewrite E; lia|]. destruct (last_number_of _); lia.
Qed.
Lemma nl_app ls' ls : forall n, Forall (fun l => nl_delimiter l = None) ls ->
  nl_entries Body (S n) (ls ++ ls') = nl_entries Body (S n) ls ++ nl_entries Body (match last_number_of (nl_entries Body (S n) ls) with 0 => S n | m => S m end) ls'.
Proof.
  induction ls as [|l ls IH]; intros n H; [reflexivity|]. inversion H as [|? ? D H']; subst. cbn [app nl_entries]. rewrite D.
  destruct l; cbn [app last_number_of]; f_equal; [now apply IH|]. rewrite (IH (S n) H'). f_equal. f_equal. destruct (last_number_of _); reflexivity.
Qed.
(** Adding the last number of the first result is right for texts without delimiters of sections, *)
Theorem C92_nl : forall x y, ends_line x -> (forall l, In l (lines (x +++ y)) -> nl_delimiter l = None) -> nl (x +++ y) = g_numbers (nl x) (nl y).
Proof.
  intros x y EX H. unfold nl, g_numbers, lines in *. rewrite (records_app _ _ _ EX) in *. apply Forall_forall in H. apply Forall_app in H as (H1 & H2).
  rewrite (nl_app _ _ 0 H1), <- (nl_shift _ _ 1 H2). f_equal. f_equal. destruct (last_number_of _); lia.
Qed.
Print Assumptions C92_nl.
(** but wrong for any text whose second part starts a body, if a line of the first part got a number. *)
Theorem C92_nl_refuted : forall x z b, ends_line x -> (forall l, In l (lines x) -> nl_delimiter l = None) -> last_number_of (nl x) <> 0 ->
  hd_error (lines z) = Some b -> nl_delimiter b = None -> b <> "" ->
  nl (x +++ unlines ["\:\:"] +++ z) <> g_numbers (nl x) (nl (unlines ["\:\:"] +++ z)).
Proof.
  intros x z b EX H N HZ DB NB. unfold nl, g_numbers in *. apply Forall_forall in H.
  assert (L : lines (x +++ unlines ["\:\:"] +++ z) = lines x ++ "\:\:" :: lines z).
  { unfold lines. rewrite (records_app _ _ _ EX), (records_app _ (unlines ["\:\:"]) z (unlines_ends _)). reflexivity. }
  assert (L' : lines (unlines ["\:\:"] +++ z) = "\:\:" :: lines z) by (unfold lines; now rewrite (records_app _ (unlines ["\:\:"]) z (unlines_ends _))).
  rewrite L, L', (nl_app _ _ 0 H). set (m := last_number_of _) in *. intros E. apply app_inv_head in E. destruct (lines z) as [|b' ls]; [discriminate|]. injection HZ as ->.
  cbn [nl_entries nl_delimiter] in E. rewrite DB in E. destruct b; [congruence|]. cbn in E. injection E as E _. lia.
Qed.
Print Assumptions C92_nl_refuted.

(** ** Examples *)
(** The entry of tr -s is right for tr -s ' ' '\n' but wrong for tr -s ab ba, which tr -s would translate back. *)
Example C92_tr_case :
  row_right simple_system (filter_civ "tr" [] [PArg "a"; PArg "b"]) 1 g_append /\
  row_right simple_system (filter_civ "tr" [FFlag "-s"] [PArg " "; PArg "\n"]) 1 (g_again simple_system 0 (filter_civ "tr" [FFlag "-s"] [PArg " "; PArg "\n"]) 1) /\
  ~ row_right simple_system (filter_civ "tr" [FFlag "-s"] [PArg "ab"; PArg "ba"]) 1 (g_again simple_system 0 (filter_civ "tr" [FFlag "-s"] [PArg "ab"; PArg "ba"]) 1).
Proof.
  assert (P1 : parse shipped_dir "tr a b" = Ok (mkInv "tr" [] ["a"; "b"])) by (vm_compute; reflexivity).
  assert (P2 : parse shipped_dir "tr -s ' ' '\n'" = Ok (mkInv "tr" [Flag "-s"] [" "; "\n"])) by (vm_compute; reflexivity).
  assert (P3 : parse shipped_dir "tr -s ab ba" = Ok (mkInv "tr" [Flag "-s"] ["ab"; "ba"])) by (vm_compute; reflexivity).
  assert (NU : forall ops, ~ uses_any (mkInv "tr" [Flag "-s"] ops) ["--help"; "--version"]).
  { intros ops (n & I1 & (fo & [<-|[]] & E)). cbn in E. subst n. cbn in I1. intuition discriminate. }
  split; [|split].
  - apply (C92_tr _ _ (filter_civ "tr" [] [PArg "a"; PArg "b"]) 1 simple_system simple_tr P1 eq_refl (conj eq_refl eq_refl)); [now apply filter_civ_reads|exact simple_is_tr|].
    intros (n & _ & (fo & [] & _)).
  - apply (C92_tr_s_iff _ _ (filter_civ "tr" [FFlag "-s"] [PArg " "; PArg "\n"]) 1 simple_system simple_tr 0 P2 eq_refl (conj eq_refl eq_refl)); [now apply filter_civ_reads|exact simple_is_tr|apply NU|].
    intros s a. assert (E : forall b, tr_image simple_tr [WFlag "-s"] [WText " "; WText "\n"] b = if Ascii.eqb b " " then newline else b).
    { intros b. unfold tr_image. cbn -[Ascii.eqb]. now destruct (Ascii.eqb b " "). }
    cbn [map v_flags v_ops filter_civ wflag_of word_of]. rewrite !E. destruct (Ascii.eqb a " ") eqn:D; [reflexivity|now rewrite D].
  - rewrite (C92_tr_s_iff _ _ (filter_civ "tr" [FFlag "-s"] [PArg "ab"; PArg "ba"]) 1 simple_system simple_tr 0 P3 eq_refl (conj eq_refl eq_refl)); [|now apply filter_civ_reads|exact simple_is_tr|apply NU].
    intros H. specialize (H (fun _ => "") "a"%char). vm_compute in H. discriminate.
Qed.
(** A plan for uniq that combines two results at a time with the entry *)
Example C92_uniq_case :
  reduced_ok (uniq_system plain_uniq) (in_chunks (AggString CUSTOM_2_ARY "x" true)) (reader "uniq" []) 1 (g_again (uniq_system plain_uniq) 0 (reader "uniq" []) 1) /\
  row_right tally (reader "uniq" ["-c"]) 1 (g_counts plain_uniq (reader "uniq" ["-c"])) /\
  forall g, ~ row_right tally (reader "uniq" ["-d"]) 1 g.
Proof.
  assert (EQ : forall fl, equivalence (uniq_same plain_uniq fl)) by (intros fl; exact eqb_equivalence).
  assert (P : parse shipped_dir "uniq" = Ok (mkInv "uniq" [] [])) by (vm_compute; reflexivity).
  destruct (reader_reads "uniq" []) as (R & T). split; [|split].
  - apply C92_plans_iff; [exact R|exact T|now apply (entries_by_words _ 0 _ 1 unary_wc plain_uniq R)|]. split.
    + intros s sd sd' x. now rewrite !(put_run _ _ _ _ _ _ R).
    + apply (C92_uniq _ _ (reader "uniq" []) 1 _ plain_uniq 0 P eq_refl (conj eq_refl eq_refl) R (uniq_system_ok _ EQ)). intros (n & _ & (fo & [] & _)).
  - destruct (reader_reads "uniq" ["-c"]) as (R' & _).
    apply (C92_uniq_c (mkInv "uniq" [Flag "-c"] []) _ 1 tally plain_uniq eq_refl); auto using tally_uniq.
    + constructor; [cbn; auto|constructor].
    + split; reflexivity.
    + intros (n & I1 & (fo & [<-|[]] & E)). cbn in E. subst n. cbn in I1. intuition discriminate.
    + exists (Flag "-c"). split; [now left|reflexivity].
  - intros g. destruct (reader_reads "uniq" ["-d"]) as (R' & _).
    apply (C92_uniq_d_refuted (mkInv "uniq" [Flag "-d"] []) _ 1 tally plain_uniq (fun _ => "") "a" "b" g eq_refl); auto using tally_uniq.
    + constructor; [cbn; auto|constructor].
    + split; reflexivity.
    + intros (n & I1 & (fo & [<-|[]] & E)). cbn in E. subst n. cbn in I1. intuition discriminate.
    + exists (Flag "-d"). split; [now left|reflexivity].
Qed.
(** wc -l and wc -L; sort -h *)
Example C92_wc_sort_case :
  row_right tally (reader "wc" ["-l"]) 1 (g_sum unary_wc) /\ ~ row_right tally (reader "wc" ["-L"]) 1 (g_sum unary_wc) /\
  row_right simple_system (reader "sort" ["-h"]) 1 (g_merge simple_system 0 (reader "sort" ["-h"])) /\ ~ row_right simple_system (reader "sort" ["-h"]) 1 g_first.
Proof.
  assert (W : exists l, has_char newline l = false /\ wc_width unary_wc l <> 0) by (exists "a"; split; [reflexivity|discriminate]).
  assert (P : parse shipped_dir "sort -h" = Ok (mkInv "sort" [Flag "-h"] [])) by (vm_compute; reflexivity).
  assert (NU : ~ uses_any (mkInv "sort" [Flag "-h"] []) ["--help"; "--version"; "--debug"; "-o"; "--files0-from"; "-c"; "-C"; "-z"; "-m"; "-u"; "-s"]).
  { intros (n & I1 & (fo & [<-|[]] & E)). cbn in E. subst n. cbn in I1. intuition discriminate. }
  destruct (reader_reads "wc" ["-l"]) as (R & _). destruct (reader_reads "wc" ["-L"]) as (R' & _). destruct (reader_reads "sort" ["-h"]) as (R2 & _).
  split; [|split; [|split]].
  - apply (C92_wc_iff (mkInv "wc" [Flag "-l"] []) _ 1 tally unary_wc eq_refl); auto using tally_wc; [constructor; [cbn; auto|constructor]|split; reflexivity|].
    intros (fo & [<-|[]] & E). discriminate.
  - rewrite (C92_wc_iff (mkInv "wc" [Flag "-L"] []) _ 1 tally unary_wc eq_refl); auto using tally_wc; [|constructor; [cbn; auto 6|constructor]|split; reflexivity].
    intros H. apply H. exists (Flag "-L"). split; [now left|reflexivity].
  - apply (C92_sort _ _ (reader "sort" ["-h"]) 1 simple_system simple_sort 0 P eq_refl (conj eq_refl eq_refl) R2 simple_is_sort simple_sort_ok NU). intros s sd sd'. now apply simple_key_seed.
  - apply (C92_sort_h_refuted _ _ (reader "sort" ["-h"]) 1 simple_system simple_sort P eq_refl (conj eq_refl eq_refl) R2 simple_is_sort NU).
Qed.
(** nl, with an empty line and with a new body *)
Example C92_nl_case :
  nl (unlines ["a"; ""; "b"]) = [(Some 1, "a"); (None, ""); (Some 2, "b")] /\
  nl (unlines ["a"; ""] +++ unlines ["b"; "c"]) = g_numbers (nl (unlines ["a"; ""])) (nl (unlines ["b"; "c"])) /\
  nl (unlines ["a"] +++ unlines ["\:\:"] +++ unlines ["b"]) <> g_numbers (nl (unlines ["a"])) (nl (unlines ["\:\:"] +++ unlines ["b"])).
Proof.
  split; [reflexivity|]. split.
  - apply C92_nl; [apply unlines_ends|]. intros l H. cbn in H. intuition (subst; reflexivity).
  - apply (C92_nl_refuted _ _ "b"); [apply unlines_ends| |discriminate|reflexivity|reflexivity|discriminate]. intros l H. cbn in H. intuition (subst; reflexivity).
Qed.
