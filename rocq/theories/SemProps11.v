(** * Proofs about what grep is meant to get (C79) *)
From Coq Require Import Lia DecimalString DecimalNat.
Require Import Verif.PyBase Verif.JsonData Verif.Parser Verif.Access Verif.IOInfo Verif.IOGen Verif.IOVars
  Verif.Transformers Verif.ParaTypes Verif.ParaGen Verif.MapperAgg Verif.SpecLists Verif.SpecIO Verif.SpecVars Verif.SpecPara
  Verif.ParserFacts Verif.ParaProps Verif.ShippedData Verif.P_Para Verif.SpecSem Verif.SemFacts Verif.SemRun Verif.SemProps Verif.SpecSem2 Verif.SemProps2
  Verif.SpecSem3 Verif.SemProps3 Verif.SemProps5 Verif.SpecSem10 Verif.SemProps10 Verif.SpecSem11.

(** ** Functions of two results *)
Lemma pairs_pieces f F (Q : string -> Prop) : (forall a b, Q (a +++ b) -> Q a) ->
  (forall a b, ends_line a -> Q (a +++ b) -> f (F a) (F b) = F (a +++ b)) -> (forall a, Q a -> f (F a) (F "") = F a) ->
  forall ls, ls <> [] -> Forall ends_line (removelast (List.concat ls)) -> Q (joined (List.concat ls)) ->
  combine_pairs f (map (fun l => F (joined l)) ls) = F (joined (List.concat ls)).
Proof.
  intros SQ H H0 ls NE. destruct ls as [|l ls]; [congruence|]. cbn [map combine_pairs List.concat]. clear NE.
  revert l. induction ls as [|l' ls IH]; intros l P QX; cbn [map fold_left List.concat]; [now rewrite app_nil_r|].
  cbn [List.concat] in P, QX. rewrite app_assoc in P, QX |- *. rewrite <- IH by assumption. f_equal.
  rewrite joined_app in QX. apply SQ in QX. rewrite joined_app in QX |- *.
  apply pieces_app in P as (P & _). apply pieces_app in P as (_ & _ & [P| ->]).
  - apply H; [now apply ends_joined|exact QX].
  - cbn in QX |- *. rewrite append_nil in QX |- *. now apply H0.
Qed.
Lemma pairs_all B p c s f ts g : Forall (fun t => pairs_evaluates B p c s f t (g t)) ts -> pairs_evaluate_all B p c s f ts (map g ts).
Proof. induction 1; cbn; constructor; auto. Qed.
Definition part_of (Q : string -> Prop) : Prop := forall a b, Q (a +++ b) -> Q a /\ Q b.
Lemma part_joined Q l1 l2 l3 : part_of Q -> Q (joined (l1 ++ l2 ++ l3)) -> Q (joined l2).
Proof. intros P H. rewrite !joined_app in H. apply P in H as (_ & H). now apply P in H as (H & _). Qed.
Lemma pairs_plan B p c i s f F Q : reads_one c i -> p_mapper p = seq_mapper -> p_info_mapper_aggregator p = 0 -> part_of Q ->
  (forall a b, ends_line a -> Q (a +++ b) -> f (F a) (F b) = F (a +++ b)) -> (forall a, Q a -> f (F a) (F "") = F a) ->
  (forall seed x, Q x -> B seed (v_cmd c) (map (wflag_of c s) (v_flags c)) (map (word_of c s) (v_ops c)) [x] = F x) ->
  forall t, fresh_plan c t -> arity (fun n => n <> 0) t -> Forall ends_line (removelast (map s (parts t))) -> Q (joined (map s (parts t))) ->
  pairs_evaluates B p c s f t (F (joined (map s (parts t)))).
Proof.
  intros R M N PQ H H0 HB. induction t as [x y seed|o seed ts IH] using plan_rect'; intros FR AR P QX.
  - destruct FR as (ND & FR). cbn in *. inversion ND as [|? ? Ni _]; subst.
    destruct (mapper_run p c i x y R M N) as (m & G & W & E); [intros ->; apply Ni; now left|apply FR; now left|apply FR; right; now left|].
    rewrite append_nil in QX |- *. rewrite <- (HB seed) by exact QX. rewrite <- E. now constructor.
  - pose proof (fresh_children _ _ _ _ FR) as FC. destruct AR as (NE & AR). apply arity_children in AR. cbn [parts] in *.
    assert (E : map s (flat_map parts ts) = List.concat (map (fun t => map s (parts t)) ts)).
    { clear. induction ts; cbn; [reflexivity|]. now rewrite map_app, IHts. }
    rewrite E in *. assert (NT : map (fun t => map s (parts t)) ts <> []) by (intros Z; apply NE; destruct ts; [reflexivity|discriminate Z]).
    rewrite <- (pairs_pieces f F Q (fun a b Z => proj1 (PQ a b Z)) H H0 _ NT P QX).
    rewrite map_map. constructor.
    apply pairs_all. clear E FR NE NT. rewrite Forall_forall in IH, FC, AR |- *. intros t I.
    apply IH; auto; clear IH FC AR.
    + clear QX. induction ts as [|t' ts IHts]; [destruct I|]. cbn in P. apply pieces_app in P as (P1 & P2 & _).
      destruct I as [<-|I]; auto.
    + clear P. induction ts as [|t' ts IHts]; [destruct I|]. cbn [map List.concat] in QX. rewrite joined_app in QX. apply PQ in QX as (Q1 & Q2).
      destruct I as [<-|I]; auto.
Qed.
Lemma pairs_fun_eq B p c s f t : forall r r', pairs_evaluates B p c s f t r -> pairs_evaluates B p c s f t r' -> r = r'.
Proof.
  induction t as [x y sd|q sd ts IH] using plan_rect'; intros r r' E E'; inversion E; subst; inversion E'; subst.
  - congruence.
  - f_equal. clear E E'. rename outs into l, outs0 into l'. rename H3 into A, H4 into A'. revert l l' A A'.
    induction IH as [|t ts H _ IH]; intros l l' A A'; inversion A; subst; inversion A'; subst; [reflexivity|]. f_equal; eauto.
Qed.
Definition chunks_with (k : agg_spec) : parallelizer := mkPar CONSEC_CHUNKS seq_mapper k NO_ADD_INPUT 0.
Lemma pairs_sound B k c i f F Q : reads_one c i -> part_of Q ->
  (forall s a b, ends_line a -> Q (a +++ b) -> f (F s a) (F s b) = F s (a +++ b)) -> (forall s a, Q a -> f (F s a) (F s "") = F s a) ->
  (forall s seed x, Q x -> B seed (v_cmd c) (map (wflag_of c s) (v_flags c)) (map (word_of c s) (v_ops c)) [x] = F s x) ->
  pairs_ok B (chunks_with k) c i f Q.
Proof.
  intros R PQ H H0 HB s t seed FR AR QX (E & X). rewrite (run_original B seed c i s R), HB by exact QX. rewrite E in QX |- *.
  exact (pairs_plan B (chunks_with k) c i s f (F s) Q R eq_refl eq_refl PQ (H s) (H0 s) (HB s) t FR AR X QX).
Qed.
Lemma pairs_two B k c i f F s a b : reads_one c i -> tight c -> ends_line a ->
  (forall sd x, In x [a; b] -> B sd (v_cmd c) (map (wflag_of c s) (v_flags c)) (map (word_of c s) (v_ops c)) [x] = F x) ->
  exists s' t, fresh_plan c t /\ arity (fun n => n <> 0) t /\ distributes (p_splitter (chunks_with k)) (s' i) (map s' (parts t)) /\ s' i = a +++ b /\
    (map (wflag_of c s') (v_flags c) = map (wflag_of c s) (v_flags c) /\ map (word_of c s') (v_ops c) = map (word_of c s) (v_ops c)) /\
    pairs_evaluates B (chunks_with k) c s' f t (f (F a) (F b)).
Proof.
  intros R T EA HB. destruct (fresh_vars c i T) as (z & Z1 & Z2).
  set (s' := connect [i; z; z + 1]%Z [a +++ b; a; b] s).
  set (t := Node (z + 4)%Z 0 [Leaf z (z + 2)%Z 0; Leaf (z + 1)%Z (z + 3)%Z 0]).
  assert (Si : s' i = a +++ b) by (unfold s'; cbn; now rewrite Z.eqb_refl).
  assert (S1 : s' z = a).
  { unfold s'; cbn. destruct (Z.eqb_spec z i); [lia|]. now rewrite Z.eqb_refl. }
  assert (S2 : s' (z + 1)%Z = b).
  { unfold s'; cbn -[Z.add]. destruct (Z.eqb_spec (z + 1) i); [lia|]. destruct (Z.eqb_spec (z + 1) z); [lia|]. now rewrite Z.eqb_refl. }
  assert (W : map (wflag_of c s') (v_flags c) = map (wflag_of c s) (v_flags c) /\ map (word_of c s') (v_ops c) = map (word_of c s) (v_ops c)).
  { apply (words_only c i s' s R). intros v J N. apply connect_out. intros [E|[E|[E|[]]]]; [now apply N| |]; apply (Z2 v); auto; lia. }
  exists s', t. split; [|split; [|split; [|split; [exact Si|split; [exact W|]]]]].
  - split; [cbn; repeat constructor; cbn; lia|]. intros v J. apply Z2. cbn in J. lia.
  - cbn. auto.
  - cbn [parts t flat_map map app]. rewrite Si, S1, S2.
    split; [cbn; now rewrite append_nil|apply (Forall_cons a EA), Forall_nil].
  - destruct W as (W1 & W2).
    assert (X : forall x y, x <> y -> (z <= x)%Z -> (z <= y)%Z -> exists m, get_actual_mapper (chunks_with k) c x y [] = Ok (Some m) /\ writes m y /\
      run B 0 m s' = B 0 (v_cmd c) (map (wflag_of c s) (v_flags c)) (map (word_of c s) (v_ops c)) [s' x]).
    { intros x y N L1 L2. destruct (mapper_run (chunks_with k) c i x y R eq_refl eq_refl N (Z2 x L1) (Z2 y L2)) as (m & G & W & Rm). exists m. split; [exact G|].
      split; [exact W|]. rewrite Rm, W1, W2. reflexivity. }
    destruct (X z (z + 2)%Z) as (m1 & G1 & V1 & R1); [lia..|]. destruct (X (z + 1)%Z (z + 3)%Z) as (m2 & G2 & V2 & R2); [lia..|].
    rewrite S1, HB in R1 by (cbn; auto). rewrite S2, HB in R2 by (cbn; auto). rewrite <- R1, <- R2.
    change (pairs_evaluates B (chunks_with k) c s' f t (combine_pairs f [run B 0 m1 s'; run B 0 m2 s'])).
    repeat (constructor; auto).
Qed.
Lemma pairs_differs B k c i f (F : string -> string) s a b (Q : string -> Prop) : reads_one c i -> tight c -> ends_line a -> Q (a +++ b) ->
  (forall sd x, In x [a; b; a +++ b] -> B sd (v_cmd c) (map (wflag_of c s) (v_flags c)) (map (word_of c s) (v_ops c)) [x] = F x) ->
  f (F a) (F b) <> F (a +++ b) -> pairs_wrong B (chunks_with k) c i f Q.
Proof.
  intros R T EA QX HB NE.
  destruct (pairs_two B k c i f F s a b R T EA) as (s' & t & FR & AR & D & Si & (W1 & W2) & E); [intros sd x I; apply HB; cbn in *; tauto|].
  exists s', t. eexists. split; [exact FR|]. split; [exact AR|]. split; [now rewrite Si|]. split; [exact D|]. split; [exact E|].
  intros sd. rewrite (run_original B sd c i s' R), W1, W2, Si, HB by (cbn; auto). exact NE.
Qed.
Lemma pairs_not_wrong B p c i f Q : pairs_ok B p c i f Q -> ~ pairs_wrong B p c i f Q.
Proof.
  intros OK (s & t & r & FR & AR & QX & D & E & NE). apply (NE 0). exact (pairs_fun_eq _ _ _ _ _ _ _ _ E (OK s t 0 FR AR QX D)).
Qed.

(** ** Selected lines *)
Lemma at_most_exists n l : existsb (fun x => x) (at_most n l) = match n with Some 0 => false | _ => existsb (fun x => x) l end.
Proof.
  revert n. induction l as [|[] l IH]; intros [[|n]|]; try reflexivity; cbn; try rewrite IH; reflexivity.
Qed.
Definition ones (l : list bool) : nat := length (filter (fun x => x) l).
Lemma at_most_count n l : ones (at_most n l) = match n with Some k => Nat.min k (ones l) | None => ones l end.
Proof.
  unfold ones. revert n. induction l as [|[] l IH]; intros [[|n]|]; cbn [at_most filter length]; try rewrite IH; lia.
Qed.
Lemma lines_cut a b : ends_line a -> lines (a +++ b) = lines a ++ lines b.
Proof. apply (records_app newline). Qed.
Lemma existsb_map_app {A} (f : A -> bool) l l' : existsb (fun x => x) (map f (l ++ l')) = existsb (fun x => x) (map f l) || existsb (fun x => x) (map f l').
Proof. now rewrite map_app, existsb_app. Qed.
Lemma ones_app l l' : ones (l ++ l') = ones l + ones l'.
Proof. unfold ones. now rewrite filter_app, app_length. Qed.
Definition selects (o : grep_oracle) fl ops (x : string) : bool := xorb (given fl ["-v"]) (grep_match o fl ops x).
Definition separator (fl : list wflag) : ascii := if given fl ["-z"] then nul else newline.
Definition limit (fl : list wflag) : option nat := last_number fl ["-m"; "--max-count"].
Lemma output_files o fl ops x : given fl ["--help"; "-V"] = false -> given fl ["-q"] = false -> given fl ["-l"] = true ->
  grep_output o fl ops x = if match limit fl with Some 0 => false | _ => existsb (fun y => y) (map (selects o fl ops) (records (separator fl) x)) end
                           then grep_label o fl else "".
Proof. intros H Q L. unfold grep_output. rewrite H, Q, L, at_most_exists. reflexivity. Qed.
Lemma output_without o fl ops x : given fl ["--help"; "-V"] = false -> given fl ["-q"] = false -> given fl ["-l"] = false -> given fl ["-L"] = true ->
  grep_output o fl ops x = if match limit fl with Some 0 => false | _ => existsb (fun y => y) (map (selects o fl ops) (records (separator fl) x)) end
                           then "" else grep_label o fl.
Proof. intros H Q L L'. unfold grep_output. rewrite H, Q, L, L', at_most_exists. reflexivity. Qed.
Lemma output_count o fl ops x : given fl ["--help"; "-V"] = false -> given fl ["-q"] = false -> given fl ["-l"] = false -> given fl ["-L"] = false ->
  given fl ["-c"] = true -> grep_output o fl ops x =
    grep_count o fl (match limit fl with Some k => Nat.min k (ones (map (selects o fl ops) (records (separator fl) x)))
                                       | None => ones (map (selects o fl ops) (records (separator fl) x)) end).
Proof. intros H Q L L' C. unfold grep_output. rewrite H, Q, L, L', C. cbn zeta. f_equal. apply at_most_count. Qed.
Lemma longer_same x : keep_longer x x = x.
Proof. unfold keep_longer. now rewrite Nat.ltb_irrefl. Qed.
Lemma shorter_same x : keep_shorter x x = x.
Proof. unfold keep_shorter. now rewrite Nat.ltb_irrefl. Qed.
Lemma longer_nil x : keep_longer x "" = x.
Proof. unfold keep_longer. now destruct x. Qed.
Lemma longer_nil_l x : keep_longer "" x = x.
Proof. unfold keep_longer. now destruct x. Qed.
Lemma shorter_nil x : keep_shorter x "" = "".
Proof. unfold keep_shorter. now destruct x. Qed.
Lemma shorter_nil_l x : keep_shorter "" x = "".
Proof. unfold keep_shorter. now destruct x. Qed.
Lemma value_text n : line_value (number_text n +++ String newline "") = n.
Proof.
  unfold line_value, lines. rewrite records_terminated_one by (apply number_clean; cbn; intuition discriminate). cbn [records].
  unfold number_text. rewrite NilEmpty.usu. apply Unsigned.of_to.
Qed.
Lemma number_text_inj n m : number_text n +++ String newline "" = number_text m +++ String newline "" -> n = m.
Proof. intros E. rewrite <- (value_text n), <- (value_text m). now f_equal. Qed.
Lemma sum_text n m : sum_up (number_text n +++ String newline "") (number_text m +++ String newline "") = number_text (n + m) +++ String newline "".
Proof. unfold sum_up. now rewrite !value_text. Qed.

(** [grep_fits fl]: there is no limit of zero ([grep_zero]), and lines are lines. *)
Lemma files_pairs o fl ops a b : given fl ["-q"] = false -> given fl ["-l"] = true ->
  given fl ["--help"; "-V"] = true \/ given fl ["-z"] = false \/ limit fl = Some 0 -> ends_line a ->
  keep_longer (grep_output o fl ops a) (grep_output o fl ops b) = grep_output o fl ops (a +++ b).
Proof.
  intros Q L CA EA. destruct (given fl ["--help"; "-V"]) eqn:H; [unfold grep_output; rewrite H; apply longer_same|].
  rewrite !output_files by assumption. destruct CA as [CA|[CA|CA]]; [discriminate| |].
  - unfold separator. rewrite CA. fold lines. change (records newline) with lines. rewrite (lines_cut a b EA), existsb_map_app.
    destruct (limit fl) as [[|n]|]; [reflexivity| |]; destruct (existsb _ (map _ (lines a))), (existsb _ (map _ (lines b))); cbn [orb];
      rewrite ?longer_same, ?longer_nil, ?longer_nil_l; reflexivity.
  - rewrite CA. reflexivity.
Qed.
Lemma files_nil o fl ops a : given fl ["-q"] = false -> given fl ["-l"] = true ->
  keep_longer (grep_output o fl ops a) (grep_output o fl ops "") = grep_output o fl ops a.
Proof.
  intros Q L. destruct (given fl ["--help"; "-V"]) eqn:H; [unfold grep_output; rewrite H; apply longer_same|].
  rewrite (output_files o fl ops "") by assumption. cbn [records map existsb]. replace (if match limit fl with Some 0 => false | _ => false end then grep_label o fl else "") with "" by now destruct (limit fl) as [[]|].
  apply longer_nil.
Qed.
Lemma without_pairs o fl ops a b : given fl ["-q"] = false -> given fl ["-l"] = false -> given fl ["-L"] = true ->
  given fl ["--help"; "-V"] = true \/ given fl ["-z"] = false \/ limit fl = Some 0 -> ends_line a ->
  keep_shorter (grep_output o fl ops a) (grep_output o fl ops b) = grep_output o fl ops (a +++ b).
Proof.
  intros Q L L' CA EA. destruct (given fl ["--help"; "-V"]) eqn:H; [unfold grep_output; rewrite H; apply shorter_same|].
  rewrite !output_without by assumption. destruct CA as [CA|[CA|CA]]; [discriminate| |].
  - unfold separator. rewrite CA. change (records newline) with lines. rewrite (lines_cut a b EA), existsb_map_app.
    destruct (limit fl) as [[|n]|]; [apply shorter_same| |]; destruct (existsb _ (map _ (lines a))), (existsb _ (map _ (lines b))); cbn [orb];
      rewrite ?shorter_same, ?shorter_nil, ?shorter_nil_l; reflexivity.
  - rewrite CA. apply shorter_same.
Qed.
Lemma without_nil o fl ops a : given fl ["-q"] = false -> given fl ["-l"] = false -> given fl ["-L"] = true ->
  keep_shorter (grep_output o fl ops a) (grep_output o fl ops "") = grep_output o fl ops a.
Proof.
  intros Q L L'. destruct (given fl ["--help"; "-V"]) eqn:H; [unfold grep_output; rewrite H; apply shorter_same|].
  rewrite !output_without by assumption. cbn [records map existsb].
  replace (if match limit fl with Some 0 => false | _ => false end then "" else grep_label o fl) with (grep_label o fl) by now destruct (limit fl) as [[]|].
  destruct (match limit fl with Some 0 => false | _ => _ end); [apply shorter_nil_l|apply shorter_same].
Qed.
Lemma count_pairs o fl ops a b : counts_plainly o -> given fl ["-q"] = false -> given fl ["-l"] = false -> given fl ["-L"] = false -> given fl ["-c"] = true ->
  given fl ["--help"; "-V"] = false -> (given fl ["-z"] = false /\ limit fl = None) \/ limit fl = Some 0 -> ends_line a ->
  sum_up (grep_output o fl ops a) (grep_output o fl ops b) = grep_output o fl ops (a +++ b).
Proof.
  intros P Q L L' C H CA EA. rewrite !output_count by assumption. rewrite !P, sum_text. do 2 f_equal. destruct CA as [(Z & ->)| ->]; [|reflexivity].
  unfold separator. rewrite Z. change (records newline) with lines. now rewrite (lines_cut a b EA), map_app, ones_app.
Qed.
Lemma count_nil o fl ops a : counts_plainly o -> given fl ["-q"] = false -> given fl ["-l"] = false -> given fl ["-L"] = false -> given fl ["-c"] = true ->
  given fl ["--help"; "-V"] = false ->
  sum_up (grep_output o fl ops a) (grep_output o fl ops "") = grep_output o fl ops a.
Proof.
  intros P Q L L' C H. rewrite !output_count by assumption. rewrite !P, sum_text. cbn [records map].
  replace (match limit fl with Some k => Nat.min k (ones []) | None => ones [] end) with 0 by (destruct (limit fl) as [[|k]|]; reflexivity).
  now rewrite Nat.add_0_r.
Qed.

(** ** Greps that show the differences *)
Definition choosy (sel : string -> bool) : grep_oracle :=
  mkGrepOracle (fun fl _ x => xorb (given fl ["-v"]) (sel x)) (fun _ _ _ _ _ _ => []) (fun _ => []) (fun _ => "f") (fun _ n => number_text n +++ String newline "") "".
Definition grep_system (o : grep_oracle) : behaviour := fun _ _ fl ops ins => grep_output o fl ops (joined ins).
Lemma grep_system_is o : is_grep o (grep_system o).
Proof. intros sd fl ops x _ _ _. unfold grep_system. cbn [joined fold_right]. now rewrite append_nil. Qed.
Lemma choosy_selects sel fl ops x : selects (choosy sel) fl ops x = sel x.
Proof. unfold selects. cbn. now destruct (given fl ["-v"]), (sel x). Qed.
Definition two_lines : string := String "a" (String newline "b").
Lemma choosy_files fl ops : given fl ["-q"] = false -> given fl ["-l"] = true -> given fl ["--help"; "-V"] = false ->
  given fl ["-z"] = true -> limit fl <> Some 0 -> let F := grep_output (choosy (String.eqb two_lines)) fl ops in
  keep_longer (F (String "a" (String newline ""))) (F "b") <> F (String "a" (String newline "") +++ "b").
Proof.
  intros Q L H Z NL F. unfold F. rewrite !output_files by assumption. rewrite !(map_ext _ _ (choosy_selects _ _ _)). unfold separator. rewrite Z.
  destruct (limit fl) as [[|n]|]; [congruence| |]; vm_compute; discriminate.
Qed.
Lemma choosy_without fl ops : given fl ["-q"] = false -> given fl ["-l"] = false -> given fl ["-L"] = true -> given fl ["--help"; "-V"] = false ->
  given fl ["-z"] = true -> limit fl <> Some 0 -> let F := grep_output (choosy (String.eqb two_lines)) fl ops in
  keep_shorter (F (String "a" (String newline ""))) (F "b") <> F (String "a" (String newline "") +++ "b").
Proof.
  intros Q L L' H Z NL F. unfold F. rewrite !output_without by assumption. rewrite !(map_ext _ _ (choosy_selects _ _ _)). unfold separator. rewrite Z.
  destruct (limit fl) as [[|n]|]; [congruence| |]; vm_compute; discriminate.
Qed.
Lemma choosy_count fl ops : given fl ["-q"] = false -> given fl ["-l"] = false -> given fl ["-L"] = false -> given fl ["-c"] = true ->
  ~ (given fl ["--help"; "-V"] = false /\ ((given fl ["-z"] = false /\ limit fl = None) \/ limit fl = Some 0)) ->
  exists o a b, counts_plainly o /\ ends_line a /\ is_text (a +++ b) /\
    sum_up (grep_output o fl ops a) (grep_output o fl ops b) <> grep_output o fl ops (a +++ b).
Proof.
  intros Q L L' C N.
  assert (P : forall sel, counts_plainly (choosy sel)) by (intros sel f n; reflexivity).
  destruct (given fl ["--help"; "-V"]) eqn:H.
  { exists (choosy (fun _ => true)), "", "". repeat split; auto; [now left|]. unfold grep_output. rewrite H. vm_compute. discriminate. }
  destruct (given fl ["-z"]) eqn:Z.
  - exists (choosy (String.eqb two_lines)), (String "a" (String newline "")), "b". repeat split; auto; [right; now exists "a"|].
    rewrite !output_count by assumption. cbn [grep_count choosy]. rewrite sum_text. intros E. apply number_text_inj in E. revert E.
    rewrite !(map_ext _ _ (choosy_selects _ _ _)). unfold separator. rewrite Z.
    change (ones (map (String.eqb two_lines) (records nul (String "a" (String newline ""))))) with 0.
    change (ones (map (String.eqb two_lines) (records nul "b"))) with 0.
    change (ones (map (String.eqb two_lines) (records nul (String "a" (String newline "") +++ "b")))) with 1.
    destruct (limit fl) as [[|n]|]; [exfalso; apply N; tauto| |]; lia.
  - destruct (limit fl) as [n|] eqn:LI; [|exfalso; apply N; tauto]. destruct n as [|n]; [exfalso; apply N; tauto|].
    exists (choosy (fun _ => true)), (copies (S n) "a"), (copies 1 "a"). repeat split; auto; [apply copies_ends| |].
    + unfold is_text, copies, unlines, terminated. rewrite <- joined_app, <- map_app.
      rewrite <- repeat_app. generalize (S n + 1). intros k. induction k as [|k IH]; [reflexivity|]. cbn [repeat map]. exact IH.
    + rewrite !output_count by assumption. cbn [grep_count choosy]. rewrite sum_text. intros E. apply number_text_inj in E. revert E.
      rewrite !(map_ext _ _ (choosy_selects _ _ _)), LI. unfold separator. rewrite Z. change (records newline) with lines.
      rewrite (lines_cut _ _ (copies_ends _ _)), !copies_lines by reflexivity.
      assert (X : forall l : list string, ones (map (fun _ => true) l) = length l) by (induction l as [|y l IH]; [reflexivity|]; cbn; now rewrite <- IH).
      rewrite !X, app_length, !repeat_length. lia.
Qed.

(** ** Numbers and offsets *)
Fixpoint numbered (f : string -> bool) (show : nat -> nat -> string -> list string) (j off : nat) (l : list string) : list string :=
  match l with
  | [] => []
  | x :: l' => (if f x then show j off x else []) ++ numbered f show (S j) (off + String.length x + 1) l'
  end.
Lemma print_numbered show f l : forall pre off prev,
  print_lines show [] 0 0 (map f (pre ++ l)) (length pre) off prev l = numbered f (fun j off => show j off true) (length pre) off l.
Proof.
  induction l as [|x l IH]; intros pre off prev; [reflexivity|]. cbn [print_lines numbered]. rewrite printed_00.
  assert (N : nth (length pre) (map f (pre ++ x :: l)) false = f x).
  { rewrite map_app, app_nth2; rewrite map_length; [|lia]. now rewrite Nat.sub_diag. }
  rewrite N. specialize (IH (pre ++ [x])). rewrite <- app_assoc, app_length, Nat.add_1_r in IH. cbn [app] in IH.
  destruct (f x); rewrite IH; [|reflexivity]. now destruct prev as [[]|].
Qed.
Fixpoint bytes (l : list string) : nat := match l with [] => 0 | x :: l' => String.length x + 1 + bytes l' end.
Lemma numbered_app f show l l' : forall j off, numbered f show j off (l ++ l') = numbered f show j off l ++ numbered f show (j + length l) (off + bytes l) l'.
Proof.
  induction l as [|x l IH]; intros j off; cbn [numbered app length bytes]; [now rewrite !Nat.add_0_r|]. rewrite IH, app_assoc. do 2 f_equal; lia.
Qed.
Lemma bytes_lines s : ends_line s -> bytes (lines s) = String.length s.
Proof.
  intros [->|(t & ->)]; [reflexivity|]. rewrite append_length. cbn [String.length]. unfold lines.
  induction t as [|a t IH]; [reflexivity|]. cbn [String.append String.length].
  change (records newline (String a (t +++ String newline ""))) with
    (if Ascii.eqb a newline then "" :: records newline (t +++ String newline "")
     else match records newline (t +++ String newline "") with [] => [String a ""] | r :: rs => String a r :: rs end).
  destruct (Ascii.eqb a newline).
  - cbn [bytes String.length]. lia.
  - destruct (records newline (t +++ String newline "")) as [|r rs] eqn:E.
    + apply records_nil in E. now destruct t.
    + cbn [bytes String.length] in *. lia.
Qed.
Lemma until_found c w s : has_char c w = false -> until_char c (w +++ String c s) = (w, s).
Proof.
  induction w as [|a w IH]; intros H; [cbn; now rewrite Ascii.eqb_refl|]. cbn [has_char] in H. apply orb_false_iff in H as (A & H).
  cbn [String.append until_char]. rewrite Ascii.eqb_sym, A. now rewrite IH.
Qed.
Lemma add_one k l n s : add_numbers (k :: l) (number_text n +++ String ":" s) = number_text (n + k) +++ String ":" (add_numbers l s).
Proof.
  cbn [add_numbers]. rewrite until_found by (apply number_clean; cbn; intuition discriminate). unfold number_text at 1. rewrite NilEmpty.usu. now rewrite Unsigned.of_to.
Qed.
(** What is printed for a part, with the numbers added, is what is printed in the whole. *)
Definition printed_part (n b : option nat) (e : nat * string) : string :=
  prefix_number n (prefix_number (match b with Some m => Some (m + fst e) | None => None end) (snd e)).
Lemma add_part (bn bb : bool) k m j off e :
  add_numbers ((if bn then [k] else []) ++ (if bb then [m] else []))
    (printed_part (if bn then Some (S j) else None) (if bb then Some off else None) e) =
  printed_part (if bn then Some (S (j + k)) else None) (if bb then Some (off + m) else None) e.
Proof.
  unfold printed_part. destruct bn, bb; cbn [app prefix_number]; rewrite ?add_one; cbn [add_numbers Nat.add]; try reflexivity;
    now replace (off + m + fst e) with (off + fst e + m) by lia.
Qed.
Lemma numbered_shift f show (g : string -> string) k m : (forall j off x, map g (show j off x) = show (j + k) (off + m) x) ->
  forall l j off, map g (numbered f show j off l) = numbered f show (j + k) (off + m) l.
Proof.
  intros H. induction l as [|x l IH]; intros j off; [reflexivity|]. cbn [numbered]. rewrite map_app, IH. f_equal.
  - now destruct (f x); [apply H|].
  - cbn [Nat.add]. f_equal. lia.
Qed.
Definition show_part (o : grep_oracle) fl ops j off x : list string :=
  grep_show o fl ops (if given fl ["-n"] then Some (S j) else None) (if given fl ["-b"] then Some off else None) true x.
Lemma prefix_clean n s : has_char newline s = false -> has_char newline (prefix_number n s) = false.
Proof.
  intros H. destruct n as [n|]; [|exact H]. cbn [prefix_number]. rewrite has_char_app, number_clean by (cbn; intuition discriminate). cbn [has_char]. now rewrite H.
Qed.
Lemma shown_clean o fl ops shown : numbers_plainly o fl ops shown -> forall l, Forall (fun x => has_char newline x = false) l ->
  forall f j off, Forall (fun x => has_char newline x = false) (numbered f (show_part o fl ops) j off l).
Proof.
  intros (E & CL). induction 1 as [|x l H _ IH]; intros f j off; [constructor|]. cbn [numbered]. apply Forall_app. split; [|apply IH].
  destruct (f x); [|constructor]. unfold show_part. rewrite E. apply Forall_map. refine (Forall_impl _ _ (CL x H)). intros e C.
  now apply prefix_clean, prefix_clean.
Qed.
Lemma output_shown o fl ops x : given fl ["--help"; "-V"; "-q"; "-l"; "-L"; "-c"; "-z"] = false -> limit fl = None -> before fl = 0 -> after fl = 0 ->
  grep_output o fl ops x = unlines (numbered (selects o fl ops) (show_part o fl ops) 0 0 (lines x)).
Proof.
  intros G LI BE AF.
  assert (X : forall names, incl names ["--help"; "-V"; "-q"; "-l"; "-L"; "-c"; "-z"] -> given fl names = false) by (intros names I; exact (given_names_sub fl _ _ I G)).
  unfold grep_output. rewrite !(X ["--help"; "-V"]), (X ["-q"]), (X ["-l"]), (X ["-L"]), (X ["-c"]), (X ["-z"]) by (intros y; cbn; tauto).
  fold (limit fl). rewrite LI, BE, AF. cbn zeta. cbn [Nat.add Nat.eqb]. rewrite at_most_none. unfold unlines, lines. f_equal.
  exact (print_numbered (fun j off => grep_show o fl ops (if given fl ["-n"] then Some (S j) else None) (if given fl ["-b"] then Some off else None))
    (selects o fl ops) (records newline x) [] 0 None).
Qed.
Lemma offsets_right o fl ops shown : numbers_plainly o fl ops shown ->
  given fl ["--help"; "-V"; "-q"; "-l"; "-L"; "-c"; "-z"] = false -> limit fl = None -> before fl = 0 -> after fl = 0 ->
  forall pieces k m, Forall ends_line (removelast pieces) ->
  with_offsets fl (grep_output o fl ops) k m pieces = unlines (numbered (selects o fl ops) (show_part o fl ops) k m (lines (joined pieces))).
Proof.
  intros NP G LI BE AF. pose proof NP as (E & CL).
  assert (A : forall x k m, add_offsets fl k m (grep_output o fl ops x) = unlines (numbered (selects o fl ops) (show_part o fl ops) k m (lines x))).
  { intros x k m. rewrite output_shown by assumption. unfold add_offsets. unfold lines at 1, unlines at 2.
    rewrite records_terminated by (apply (shown_clean _ _ _ _ NP), records_clean). f_equal.
    rewrite (numbered_shift _ (show_part o fl ops) _ k m); [reflexivity|]. clear x. intros j off x. unfold show_part. rewrite !E, map_map. apply map_ext. intros e.
    apply (add_part (given fl ["-n"]) (given fl ["-b"])). }
  induction pieces as [|x pieces IH]; intros k m P; [reflexivity|]. cbn [with_offsets]. rewrite A.
  destruct pieces as [|y pieces]; [cbn; now rewrite !append_nil|].
  change (removelast (x :: y :: pieces)) with (x :: removelast (y :: pieces)) in P. inversion P as [|? ? P1 P2]; subst.
  rewrite IH by exact P2. change (joined (x :: y :: pieces)) with (x +++ joined (y :: pieces)).
  rewrite (lines_cut _ _ P1), numbered_app, <- (bytes_lines x P1). unfold unlines. now rewrite terminated_app.
Qed.
(** Two pieces with the same line: what is printed for them differs. *)
Lemma offsets_differ o fl ops shown x e es : numbers_plainly o fl ops shown ->
  given fl ["--help"; "-V"; "-q"; "-l"; "-L"; "-c"; "-z"] = false -> limit fl = None -> before fl = 0 -> after fl = 0 ->
  given fl ["-n"; "-b"] = true -> has_char newline x = false -> selects o fl ops x = true -> shown x = e :: es ->
  let a := x +++ String newline "" in grep_output o fl ops (a +++ a) <> grep_output o fl ops a +++ grep_output o fl ops a.
Proof.
  intros NP G LI BE AF NB CX SX SH a. pose proof NP as (E & CL). rewrite !output_shown by assumption.
  assert (EA : ends_line a) by (right; now exists x).
  assert (LA : lines a = [x]) by (unfold lines, a; now rewrite records_terminated_one).
  rewrite (lines_cut a a EA), LA. unfold unlines. rewrite <- terminated_app. intros X. apply (f_equal (records newline)) in X.
  rewrite (records_terminated newline (numbered _ _ _ _ ([x] ++ [x]))) in X by (apply (shown_clean _ _ _ _ NP); repeat constructor; exact CX).
  rewrite records_terminated in X by (apply Forall_app; split; apply (shown_clean _ _ _ _ NP); repeat constructor; exact CX).
  rewrite numbered_app in X. apply app_inv_head in X. cbn [numbered length Nat.add bytes] in X. rewrite SX in X.
  unfold show_part in X. rewrite !E, SH, app_nil_r in X. cbn [map app] in X. injection X as X _.
  rewrite given_two in NB. fold (printed_part (if given fl ["-n"] then Some 2 else None) (if given fl ["-b"] then Some (String.length x + 1 + 0) else None) e) in X.
  fold (printed_part (if given fl ["-n"] then Some 1 else None) (if given fl ["-b"] then Some 0 else None) e) in X.
  unfold printed_part in X. destruct (given fl ["-n"]); cbn [prefix_number] in X.
  - apply (f_equal (until_char ":")) in X. rewrite !until_found in X by (apply number_clean; cbn; intuition discriminate). apply (f_equal fst) in X. discriminate X.
  - destruct (given fl ["-b"]); [|discriminate]. cbn [prefix_number Nat.add] in X. apply (f_equal (until_char ":")) in X.
    rewrite !until_found in X by (apply number_clean; cbn; intuition discriminate). apply (f_equal fst) in X. cbn [fst] in X.
    assert (Y : number_text (String.length x + 1 + 0 + fst e) +++ String newline "" = number_text (fst e) +++ String newline "") by now rewrite X.
    apply number_text_inj in Y. lia.
Qed.
