(** * Proofs about outputs that depend on chance or on the order of events *)
From Coq Require Import Lia.
Require Import Verif.PyBase Verif.JsonData Verif.Parser Verif.Access Verif.IOInfo Verif.IOVars
  Verif.Transformers Verif.ParaTypes Verif.ParaGen Verif.MapperAgg Verif.SpecLists Verif.SpecIO Verif.SpecVars Verif.SpecPara
  Verif.ParserFacts Verif.ParaProps Verif.ShippedData Verif.P_Para Verif.SpecSem Verif.SemFacts Verif.SemRun Verif.SemProps Verif.SpecSem2
  Verif.SemProps2 Verif.SpecSem4 Verif.SpecSem6 Verif.P_Sem6 Verif.SpecSem7 Verif.SemProps7 Verif.SpecSem9.

(** ** Plans *)
Lemma evaluates_once B dir p c s t : forall r r', evaluates B dir p c s t r -> evaluates B dir p c s t r' -> r = r'.
Proof.
  induction t as [x y seed|o seed ts IH] using plan_rect'; intros r r' E E'.
  - apply eval_leaf in E as (m & G & ->). apply eval_leaf in E' as (m' & G' & ->). congruence.
  - apply eval_node in E as (outs & k & a & EV & G & ->). apply eval_node in E' as (outs' & k' & a' & EV' & G' & ->).
    assert (X : outs = outs'); [|subst outs'; congruence]. clear -IH EV EV'. revert outs outs' EV EV'.
    induction IH as [|t ts H _ IHts]; intros outs outs' EV EV'.
    + inversion EV; inversion EV'; congruence.
    + apply eval_cons in EV as (r & rs & -> & E1 & E2). apply eval_cons in EV' as (r' & rs' & -> & E1' & E2'). f_equal; auto.
Qed.
(** What the leaves give *)
Fixpoint leaves (f : nat -> string -> string) (s : store) (t : plan) : list string :=
  match t with Leaf x _ seed => [f seed (s x)] | Node _ _ ts => flat_map (leaves f s) ts end.
Lemma concat_leaves B dir p c i s : reads_one c i -> p_mapper p = seq_mapper -> p_info_mapper_aggregator p = 0 ->
  p_aggregator p = SpecPara.concat -> is_cat B ->
  forall t, fresh_plan c t -> arity (fun n => n <> 0) t ->
  evaluates B dir p c s t
    (joined (leaves (fun sd x => B sd (v_cmd c) (map (wflag_of c s) (v_flags c)) (map (word_of c s) (v_ops c)) [x]) s t)).
Proof.
  intros R M N A CB. set (L := leaves _ s). induction t as [x y seed|o seed ts IH] using plan_rect'; intros FR AR.
  - destruct FR as (ND & FR). cbn in *. inversion ND as [|? ? Ni _]; subst.
    destruct (mapper_run p c i x y R M N) as (m & G & W & E); [intros ->; apply Ni; now left|apply FR; now left|apply FR; right; now left|].
    rewrite append_nil. rewrite <- E. now constructor.
  - pose proof (fresh_children _ _ _ _ FR) as FC. cbn in AR. destruct AR as (AN & AR). apply arity_children in AR.
    set (f := fun t => joined (L t)).
    assert (EV : evaluate_all B dir p c s ts (map f ts)).
    { apply all_evaluate. rewrite Forall_forall in *. intros t I. apply IH; auto. }
    destruct (cat_run dir c (map root ts) o (map f ts)) as (a & G & W & E).
    + apply roots_nodup. apply FR.
    + now rewrite !map_length.
    + destruct ts; [now destruct AN|discriminate].
    + assert (E2 : joined (L (Node o seed ts)) = joined (map f ts)).
      { unfold L. cbn [leaves]. fold L. unfold f. clear. induction ts as [|t ts IH]; [reflexivity|]. cbn [flat_map map]. rewrite joined_app, IH. reflexivity. }
      rewrite E2, <- (E B seed s CB). econstructor; eauto. rewrite A. exact G.
Qed.
Lemma leaves_pairs f s t : exists l, leaves f s t = map (fun e => f (fst e) (snd e)) l /\ map s (parts t) = map snd l.
Proof.
  induction t as [x y seed|o seed ts IH] using plan_rect'.
  - exists [(seed, s x)]. split; reflexivity.
  - cbn [leaves parts]. induction IH as [|t ts (l & E1 & E2) _ (m & E3 & E4)]; [exists []; split; reflexivity|].
    exists (l ++ m). cbn [flat_map]. now rewrite !map_app, E1, E2, E3, E4.
Qed.
Lemma pieces_may (f : nat -> string -> string) (Q : string -> Prop) : tail_closed Q ->
  (forall sd1 sd2 a b, ends_line a -> Q (a +++ b) -> exists sd, f sd (a +++ b) = f sd1 a +++ f sd2 b) ->
  forall l, l <> [] -> Q (joined (map snd l)) -> Forall ends_line (removelast (map snd l)) ->
  exists sd, f sd (joined (map snd l)) = joined (map (fun e => f (fst e) (snd e)) l).
Proof.
  intros QC H. induction l as [|[sd x] l IH]; intros NE HQ F; [now destruct NE|]. destruct l as [|e l].
  - exists sd. cbn. now rewrite !append_nil.
  - change (map snd ((sd, x) :: e :: l)) with (x :: map snd (e :: l)) in *. change (joined (x :: map snd (e :: l))) with (x +++ joined (map snd (e :: l))) in *.
    change (removelast (x :: map snd (e :: l))) with (x :: removelast (map snd (e :: l))) in F. inversion F as [|? ? EX F']; subst.
    destruct IH as (sd' & E); [discriminate|now apply (QC x)|exact F'|]. destruct (H sd sd' x _ EX HQ) as (sd'' & E').
    exists sd''. rewrite E', E. reflexivity.
Qed.
Lemma may_sound B dir p c i Q : reads_one c i -> In p (stateless SpecPara.concat) -> is_cat B -> tail_closed Q ->
  piecewise_may B c i Q -> parallel_may B dir p c i (fun n => n <> 0) Q.
Proof.
  intros R I CB QC PW s t FR AR HQ DI.
  assert (M : p_mapper p = seq_mapper /\ p_info_mapper_aggregator p = 0 /\ p_aggregator p = SpecPara.concat /\
    cut_at_lines (s i) (map s (parts t))).
  { destruct I as [<-|[<-|[]]]; cbn in DI; auto. }
  destruct M as (M1 & M2 & M3 & CU).
  pose proof (concat_leaves B dir p c i s R M1 M2 M3 CB t FR AR) as EV. split; [eexists; exact EV|].
  intros r E. rewrite (evaluates_once _ _ _ _ _ _ _ _ E EV). clear E EV.
  set (f := fun sd x => B sd (v_cmd c) (map (wflag_of c s) (v_flags c)) (map (word_of c s) (v_ops c)) [x]).
  destruct (leaves_pairs f s t) as (l & E1 & E2). rewrite E1. rewrite E2 in CU. destruct CU as (CU1 & CU2). rewrite CU1 in HQ.
  destruct (pieces_may f Q QC) with (l := l) as (sd & E); auto.
  - intros sd1 sd2 a b EA HAB. destruct (PW s sd1 sd2 a b EA HAB) as (sd & E). exists sd. unfold f. rewrite <- !(put_run B _ c i s _ R). exact E.
  - intros ->. cbn in E2. apply map_eq_nil in E2. revert E2. eapply parts_nonempty; [|exact AR]. auto.
  - exists sd. rewrite (run_original B sd c i s R). rewrite CU1. symmetry. exact E.
Qed.
Lemma may_complete B dir p c i Q : reads_one c i -> tight c -> In p (stateless SpecPara.concat) -> is_cat B ->
  parallel_may B dir p c i (fun n => n <> 0) Q -> piecewise_may B c i Q.
Proof.
  intros R T I CB PM s sd1 sd2 a b EA HQ.
  destruct (fresh_vars c i T) as (z & Z1 & Z2).
  set (s' := connect [i; z; z + 1]%Z [a +++ b; a; b] s).
  set (t := Node (z + 4)%Z 0 [Leaf z (z + 2)%Z sd1; Leaf (z + 1)%Z (z + 3)%Z sd2]).
  assert (Si : s' i = a +++ b) by (unfold s'; cbn; now rewrite Z.eqb_refl).
  assert (S1 : s' z = a).
  { unfold s'; cbn. destruct (Z.eqb_spec z i); [lia|]. now rewrite Z.eqb_refl. }
  assert (S2 : s' (z + 1)%Z = b).
  { unfold s'; cbn -[Z.add]. destruct (Z.eqb_spec (z + 1) i); [lia|]. destruct (Z.eqb_spec (z + 1) z); [lia|]. now rewrite Z.eqb_refl. }
  assert (W : map (wflag_of c s') (v_flags c) = map (wflag_of c s) (v_flags c) /\ map (word_of c s') (v_ops c) = map (word_of c s) (v_ops c)).
  { apply (words_only c i s' s R). intros v J N. apply connect_out. intros [E|[E|[E|[]]]]; [now apply N| |]; apply (Z2 v); auto; lia. }
  destruct W as (W1 & W2).
  assert (FR : fresh_plan c t).
  { split; [cbn; repeat constructor; cbn; lia|]. intros v J. apply Z2. cbn in J. lia. }
  assert (AR : arity (fun n => n <> 0) t) by (cbn; auto).
  assert (DI : distributes (p_splitter p) (s' i) (map s' (parts t))).
  { cbn [parts t flat_map map app]. rewrite Si, S1, S2.
    assert (X : cut_at_lines (a +++ b) [a; b]) by (split; [cbn; now rewrite append_nil|apply (Forall_cons a EA), Forall_nil]).
    destruct I as [<-|[<-|[]]]; exact X. }
  assert (M : p_mapper p = seq_mapper /\ p_info_mapper_aggregator p = 0 /\ p_aggregator p = SpecPara.concat) by (destruct I as [<-|[<-|[]]]; auto).
  destruct M as (M1 & M2 & M3).
  destruct (PM s' t FR AR) as (_ & H); [now rewrite Si|exact DI|].
  destruct (H _ (concat_leaves B dir p c i s' R M1 M2 M3 CB t FR AR)) as (sd & E). exists sd.
  rewrite !(put_run B _ c i s _ R). rewrite (run_original B sd c i s' R), W1, W2, Si in E. cbn [t leaves flat_map app joined fold_right] in E.
  rewrite S1, S2, append_nil in E. symmetry. exact E.
Qed.

(** ** The order in which commands end *)
Lemma ending_app {A} k (l o : list A) : ending k l o -> forall m o', ending k m o' -> ending k (l ++ m) (o ++ o').
Proof.
  induction 1 as [|l x l' o R _ IH]; intros m o' H; [exact H|]. rewrite <- app_assoc. cbn [app]. apply end_one; [exact R|].
  rewrite app_assoc. now apply IH.
Qed.
Lemma ending_refl {A} k (l : list A) : ending k l l.
Proof.
  induction l as [|x l IH]; [constructor|]. apply (end_one k [] x l l); [|exact IH]. unfold room. cbn. lia.
Qed.
Lemma ending_one {A} (l o : list A) : ending 1 l o <-> o = l.
Proof.
  split; [|intros ->; apply ending_refl]. induction 1 as [|l x l' o R _ IH]; [reflexivity|].
  destruct R as [R|R]; [discriminate|]. destruct l; [cbn in *; now rewrite IH|cbn in R; lia].
Qed.
Lemma ending_perm {A} k (l o : list A) : ending k l o -> Permutation l o.
Proof. induction 1 as [|l x l' o _ _ IH]; [constructor|]. rewrite <- Permutation_middle. now constructor. Qed.
Lemma confirmed_app {A} (l l' : list A) : confirmed l l' -> forall m m', confirmed m m' -> confirmed (l ++ m) (l' ++ m').
Proof. induction 1; intros; cbn; try constructor; auto. Qed.
Lemma confirmed_refl {A} (l : list A) : confirmed l l.
Proof. induction l; constructor; auto. Qed.
(** All of them *)
Fixpoint picks {A} (l : list A) : list (A * list A) :=
  match l with [] => [] | x :: l' => (x, l') :: map (fun e => (fst e, x :: snd e)) (picks l') end.
Definition some_picks {A} (k : nat) (l : list A) : list (A * list A) := match k with 0 => picks l | _ => firstn k (picks l) end.
Fixpoint orders {A} (n k : nat) (l : list A) : list (list A) :=
  match n with
  | 0 => [[]]
  | S n' => flat_map (fun e => map (cons (fst e)) (orders n' k (snd e))) (some_picks k l)
  end.
Fixpoint choices {A} (l : list A) : list (list A) :=
  match l with [] => [[]] | x :: l' => map (cons x) (choices l') ++ choices l' end.
Lemma choices_spec {A} (l m : list A) : In m (choices l) <-> confirmed l m.
Proof.
  revert m. induction l as [|x l IH]; intros m; cbn.
  - split; [intros [<-|[]]; constructor|]. inversion 1. now left.
  - rewrite in_app_iff, in_map_iff. split.
    + intros [(m' & <- & I)|I]; constructor; now apply IH.
    + intros H. inversion H as [|? ? m' C|? ? ? C]; subst; apply IH in C; eauto.
Qed.
Lemma picks_nth {A} (l : list A) : forall j e, nth_error (picks l) j = Some e <-> exists l1 l2, length l1 = j /\ l = l1 ++ fst e :: l2 /\ snd e = l1 ++ l2.
Proof.
  induction l as [|x l IH]; intros j [y m]; cbn [picks fst snd].
  - split; [destruct j; discriminate|]. intros (l1 & l2 & _ & E & _). now destruct l1.
  - destruct j as [|j]; cbn [nth_error].
    + split; [intros [= -> ->]; exists [], m; auto|]. intros (l1 & l2 & E & E1 & E2). destruct l1; [|discriminate]. cbn in *. congruence.
    + rewrite nth_error_map. split.
      * destruct (nth_error (picks l) j) as [[y' m']|] eqn:E; [|discriminate]. cbn. intros [= -> <-].
        destruct (proj1 (IH j (y, m')) E) as (l1 & l2 & E0 & E1 & E2). cbn in *. exists (x :: l1), l2. cbn. split; [lia|]. split; congruence.
      * intros (l1 & l2 & E0 & E1 & E2). destruct l1 as [|x' l1]; [discriminate|]. cbn in *. injection E0 as E0. injection E1 as <- E1. subst m.
        rewrite (proj2 (IH j (y, l1 ++ l2))); [reflexivity|]. exists l1, l2. auto.
Qed.
Lemma nth_firstn {A} (l : list A) : forall k j, nth_error (firstn k l) j = if Nat.ltb j k then nth_error l j else None.
Proof.
  induction l as [|x l IH]; intros k j.
  - rewrite firstn_nil. destruct (Nat.ltb j k); now destruct j.
  - destruct k as [|k]; [now destruct j|]. destruct j as [|j]; [reflexivity|]. cbn [firstn nth_error]. now rewrite IH.
Qed.
Lemma some_picks_spec {A} k (l : list A) e : In e (some_picks k l) <-> exists l1 l2, room k (length l1) /\ l = l1 ++ fst e :: l2 /\ snd e = l1 ++ l2.
Proof.
  unfold some_picks, room. destruct k as [|k].
  - split.
    + intros I. apply In_nth_error in I as (j & E). apply picks_nth in E as (l1 & l2 & _ & E). eauto.
    + intros (l1 & l2 & _ & E). apply (nth_error_In _ (length l1)), picks_nth. eauto.
  - split.
    + intros I. apply In_nth_error in I as (j & E). rewrite nth_firstn in E. destruct (Nat.ltb_spec j (S k)); [|discriminate].
      apply picks_nth in E as (l1 & l2 & <- & E). eauto.
    + intros (l1 & l2 & [R|R] & E); [discriminate|]. apply (nth_error_In _ (length l1)). rewrite nth_firstn. destruct (Nat.ltb_spec (length l1) (S k)); [|lia].
      apply picks_nth. eauto.
Qed.
Lemma orders_spec {A} k n : forall (l o : list A), length l = n -> (In o (orders n k l) <-> ending k l o).
Proof.
  induction n as [|n IH]; intros l o L; cbn [orders].
  - destruct l; [|discriminate]. split; [intros [<-|[]]; constructor|]. inversion 1 as [|l1 x l2 ? _ _ E]; [now left|now destruct l1].
  - rewrite in_flat_map. split.
    + intros (e & I & J). apply in_map_iff in J as (o' & <- & J). apply some_picks_spec in I as (l1 & l2 & R & -> & E). constructor; [exact R|].
      rewrite <- E. apply IH; [|exact J]. rewrite E. rewrite app_length in *. cbn in L. lia.
    + intros H. destruct H as [|l1 x l2 o R H]; [discriminate|]. exists (x, l1 ++ l2). split; [apply some_picks_spec; exists l1, l2; auto|].
      apply in_map_iff. exists o. split; [reflexivity|]. apply IH; [|exact H]. cbn [snd]. rewrite app_length in *. cbn in L. lia.
Qed.
Definition outcomes (o : xargs_world) (fl : list wflag) (ops : list word) (l : list (string * bool)) : list string :=
  if given fl ["--help"; "--version"] then [about o]
  else if bad_number fl then [""]
  else flat_map (fun r => map joined (orders (length r) (processes fl) r)) (if given fl ["-p"] then choices (printed o fl ops l) else [printed o fl ops l]).
Lemma outcomes_spec o fl ops l r : In r (outcomes o fl ops l) <-> xargs_may o fl ops l r.
Proof.
  unfold outcomes, xargs_may. destruct (given fl ["--help"; "--version"]); [cbn; intuition congruence|]. destruct (bad_number fl); [cbn; intuition congruence|].
  rewrite in_flat_map. split.
  - intros (run & I & J). apply in_map_iff in J as (order & <- & J). apply orders_spec in J; [|reflexivity]. exists run, order. split; [|auto].
    destruct (given fl ["-p"]); [now apply choices_spec|]. destruct I as [<-|[]]. reflexivity.
  - intros (run & order & C & E & ->). exists run. split.
    + destruct (given fl ["-p"]); [now apply choices_spec|]. subst. now left.
    + apply in_map_iff. exists order. split; [reflexivity|]. now apply orders_spec.
Qed.
Lemma may_refl o fl ops l : xargs_may o fl ops l (xargs_prints o fl ops l).
Proof.
  unfold xargs_may, xargs_prints. destruct (given fl ["--help"; "--version"]); [reflexivity|]. destruct (bad_number fl); [reflexivity|].
  exists (printed o fl ops l), (printed o fl ops l). split; [|split; [apply ending_refl|]].
  - destruct (given fl ["-p"]); [apply confirmed_refl|reflexivity].
  - unfold printed. destruct (last_text fl ["-I"]); [reflexivity|]. destruct l; [|reflexivity]. destruct (given fl ["-r"]); [reflexivity|]. cbn. now rewrite append_nil.
Qed.
(** A system with these outcomes *)
Definition chance_system (w : xargs_system) : behaviour := fun seed cmd fl ops inputs =>
  if String.eqb cmd "cat" then joined inputs else
  let l := match all_items w fl (joined inputs) with Some l => l | None => [] end in
  nth seed (outcomes (world w) fl ops l) (xargs_prints (world w) fl ops l).
Lemma may_same o fl ops l m r : given fl ["--help"; "--version"] = true \/ bad_number fl = true -> xargs_may o fl ops l r <-> xargs_may o fl ops m r.
Proof. unfold xargs_may. intros [-> | ->]; [reflexivity|]. destruct (given fl ["--help"; "--version"]); reflexivity. Qed.
Lemma chance_xargs w : is_xargs_system w (chance_system w).
Proof.
  intros fl ops input l _ _ E r. unfold chance_system. cbn [String.eqb Ascii.eqb Bool.eqb joined fold_right]. rewrite append_nil. cbv zeta.
  set (l' := match all_items w fl input with Some l => l | None => [] end).
  assert (X : xargs_may (world w) fl ops l r <-> xargs_may (world w) fl ops l' r).
  { destruct E as [E|[E|(E & _)]]; [apply may_same; now left|apply may_same; now right|]. unfold l'. now rewrite E. }
  rewrite X. clear X E. rewrite <- outcomes_spec. split.
  - intros (seed & <-). destruct (nth_in_or_default seed (outcomes (world w) fl ops l') (xargs_prints (world w) fl ops l')) as [I| ->]; [exact I|].
    apply outcomes_spec, may_refl.
  - intros I. apply (In_nth _ _ (xargs_prints (world w) fl ops l')) in I as (n & _ & <-). eauto.
Qed.
Lemma chance_cat w : is_cat (chance_system w).
Proof. intros seed ops inputs _. reflexivity. Qed.

(** ** Safe uses *)
Lemma last_word_none fl n : given fl [n] = false -> last_word fl n = None.
Proof.
  unfold last_word, given. generalize (@None word). induction fl as [|f fl IH]; intros r H; [reflexivity|]. cbn [existsb] in H.
  apply orb_false_elim in H as [H1 H2]. cbn [fold_left]. destruct f as [m|m x]; [now apply IH|]. cbn in H1. rewrite orb_false_r in H1. rewrite H1. now apply IH.
Qed.
Lemma last_word_some fl n : (forall f, In f fl -> wflag_name f = n -> exists x, f = WOption n x) -> given fl [n] = true -> exists x, last_word fl n = Some x.
Proof.
  intros T. unfold last_word, given. assert (X : forall r : option word, (existsb (fun f => mem (wflag_name f) [n]) fl = true \/ exists x, r = Some x) ->
    exists x, fold_left (fun r f => match f with WOption m x => if String.eqb m n then Some x else r | _ => r end) fl r = Some x).
  { induction fl as [|f fl IH]; intros r H; cbn [fold_left].
    - destruct H as [H|H]; [discriminate|exact H].
    - assert (T' : forall f, In f fl -> wflag_name f = n -> exists x, f = WOption n x) by (intros; apply T; auto; now right).
      destruct H as [H|(x & ->)].
      + cbn [existsb] in H. apply orb_prop in H as [H|H]; [|apply IH; auto]. apply mem_In in H as [H|[]].
        destruct (T f (or_introl eq_refl) (eq_sym H)) as (x & ->). rewrite String.eqb_refl. apply IH; eauto.
      + destruct f as [m|m y]; [apply IH; eauto|]. destruct (String.eqb m n); apply IH; eauto. }
  intros G. apply X. now left.
Qed.
Lemma up_to_all e l : ~ In e (map fst l) -> up_to e l = l.
Proof.
  induction l as [|[x b] l IH]; intros H; [reflexivity|]. cbn in *. destruct (String.eqb_spec x e); [tauto|]. rewrite IH; tauto.
Qed.
Lemma endless_all o fl s l : endless o fl s -> read_items o fl s = Some l -> until_end o fl l = l.
Proof. unfold endless, until_end. intros E R. destruct (end_string o fl) as [e|]; [|reflexivity]. apply up_to_all. now apply E. Qed.
Lemma printed_app o fl ops l m : one_kind fl -> xargs_safe o fl -> bad_number fl = false ->
  (given fl ["-L"] = true -> given fl ["-I"] = false -> closed_list l) ->
  printed o fl ops (l ++ m) = printed o fl ops l ++ printed o fl ops m.
Proof.
  intros K (H & S) BN C. unfold printed.
  destruct S as [S|(_ & S)]; [congruence|]. destruct (given fl ["-I"]) eqn:GI.
  { destruct (last_some fl "-I" K) as (t & -> & _); [cbn; auto|exact GI|]. now rewrite !map_app. }
  destruct S as [S|(R & S)]; [discriminate S|]. destruct (last_none fl "-I" GI) as (_ & ->). rewrite R.
  assert (X : forall k, (match k with [] => [] | _ => map (appended o ops) (grouped fl k) end) = map (appended o ops) (grouped fl k) /\
    (last_number fl ["-n"] = Some 1 /\ grouped fl k = map (fun x => [x]) (map fst k) \/
     last_number fl ["-n"] = None /\ last_number fl ["-L"] = Some 1 /\ grouped fl k = line_batches 0 0 k)).
  { intros k. assert (Y : last_number fl ["-n"] = Some 1 /\ grouped fl k = map (fun x => [x]) (map fst k) \/
     last_number fl ["-n"] = None /\ last_number fl ["-L"] = Some 1 /\ grouped fl k = line_batches 0 0 k).
    { unfold grouped, bad_number in *. destruct S as [S|S]; rewrite S in *.
      - left. split; [reflexivity|]. rewrite batches_one. destruct (last_number fl ["-L"]) as [[|]|]; [discriminate BN|reflexivity|reflexivity].
      - assert (GL : given fl ["-L"] = true).
        { destruct (given fl ["-L"]) eqn:E; [reflexivity|]. apply last_none in E as (E & _). rewrite E in S. discriminate S. }
        destruct K as (_ & K & _). assert (GN := K "-L" "-n" ltac:(cbn; auto) ltac:(cbn; auto) ltac:(discriminate) GL).
        apply last_none in GN as (-> & _). right. auto. }
    split; [|exact Y]. destruct k; [|reflexivity]. destruct Y as [(_ & ->)|(_ & _ & ->)]; reflexivity. }
  destruct (X (l ++ m)) as (-> & X1), (X l) as (-> & X2), (X m) as (-> & X3). rewrite <- map_app. f_equal.
  destruct X1 as [(N & ->)|(N & L & ->)], X2 as [(N' & ->)|(N' & _ & ->)], X3 as [(N'' & ->)|(N'' & _ & ->)]; try congruence.
  - now rewrite !map_app.
  - apply line_batches_app, C; [|reflexivity].
    destruct (given fl ["-L"]) eqn:E; [reflexivity|]. apply last_none in E as (E & _). rewrite E in L. discriminate L.
Qed.
Lemma may_app o fl ops l m r r' : given fl ["--help"; "--version"] = false ->
  (bad_number fl = false -> printed o fl ops (l ++ m) = printed o fl ops l ++ printed o fl ops m) ->
  xargs_may o fl ops l r -> xargs_may o fl ops m r' -> xargs_may o fl ops (l ++ m) (r +++ r').
Proof.
  unfold xargs_may. intros -> H. destruct (bad_number fl); [intros -> ->; reflexivity|].
  intros (run & order & C & E & ->) (run' & order' & C' & E' & ->). exists (run ++ run'), (order ++ order').
  rewrite (H eq_refl). split; [|split; [now apply ending_app|now rewrite joined_app]].
  destruct (given fl ["-p"]); [now apply confirmed_app|now subst].
Qed.
Lemma system_piecewise inv c v B w (Q : string -> Prop) :
  cmd_name inv = "xargs" -> Forall (fun fo => In (fo_name fo) system_names) (flag_option_list inv) ->
  invocation_of inv c -> reads_one c v -> is_xargs_system w B ->
  (forall s, one_kind9 (map (wflag_of c s) (v_flags c)) /\ xargs_fine (world w) (map (wflag_of c s) (v_flags c))) ->
  (forall s x, Q x -> bad_number (map (wflag_of c s) (v_flags c)) = true \/ system_input (world w) (map (wflag_of c s) (v_flags c)) x) ->
  piecewise_may B c v Q.
Proof.
  intros C F IN R XB KS QI s seed1 seed2 a b EA HQ.
  assert (CN : v_cmd c = "xargs") by (destruct IN as (-> & _); exact C). assert (KN := names_known inv c s _ IN F).
  destruct (KS s) as (K & S & A). specialize (QI s _ HQ). rewrite !(put_run B _ c v s _ R). 
  enough (X : exists seed, B seed (v_cmd c) (map (wflag_of c s) (v_flags c)) (map (word_of c s) (v_ops c)) [a +++ b] =
    B seed1 (v_cmd c) (map (wflag_of c s) (v_flags c)) (map (word_of c s) (v_ops c)) [a] +++ B seed2 (v_cmd c) (map (wflag_of c s) (v_flags c)) (map (word_of c s) (v_ops c)) [b]).
  { destruct X as (sd & X). exists sd. rewrite (put_run B _ c v s _ R). exact X. }
  set (fl := map (wflag_of c s) (v_flags c)) in *. set (ops := map (word_of c s) (v_ops c)). rewrite CN.
  destruct (bad_number fl) eqn:BN.
  - assert (X : forall x, reads_items w fl x []) by (right; now left).
    apply (XB fl ops (a +++ b) [] KN K (X _)).
    apply (may_app (world w) fl ops [] []); [apply S|congruence| |]; [apply (XB fl ops a [] KN K (X _))|apply (XB fl ops b [] KN K (X _))]; eauto.
  - destruct A as [A|A]; [congruence|]. destruct QI as [QI|(QI & ND)]; [congruence|].
    destruct (read_items_app (world w) fl a b EA) as (l & m & EA' & EB & EAB & CL); [|exact QI|].
    { destruct S as (_ & [S|(S & _)]); [congruence|exact S]. }
    assert (SRC : forall x, source w fl x = x) by (intros x; unfold source; now rewrite last_word_none).
    destruct (input_app (world w) fl a b EA QI) as (QA & QB).
    assert (RI : forall x k, xargs_input (world w) fl x -> read_items (world w) fl x = Some k -> endless (world w) fl x -> reads_items w fl x k).
    { intros x k H E D. right; right. unfold all_items. rewrite SRC, E. rewrite (endless_all _ _ _ _ D E). split; [reflexivity|]. now apply (input_read (world w) fl). }
    assert (DA : endless (world w) fl a).
    { intros e l' ES E I. rewrite EA' in E. injection E as <-. apply (ND e _ ES EAB). rewrite map_app. apply in_app_iff. auto. }
    assert (DB : endless (world w) fl b).
    { intros e l' ES E I. rewrite EB in E. injection E as <-. apply (ND e _ ES EAB). rewrite map_app. apply in_app_iff. auto. }
    apply (XB fl ops (a +++ b) _ KN K (RI _ _ QI EAB ND)).
    apply may_app; [apply S| |apply (XB fl ops a _ KN K (RI _ _ QA EA' DA)); eauto|apply (XB fl ops b _ KN K (RI _ _ QB EB DB)); eauto].
    intros _. apply printed_app; auto. apply K.
Qed.

(** ** Items of lines *)
Lemma has_char_snoc d x a : has_char d (x +++ String a "") = has_char d x || Ascii.eqb d a.
Proof. rewrite has_char_app. cbn. now rewrite orb_false_r. Qed.
(** Items have the characters of the input; newlines only if quoted or escaped. *)
Lemma read_chars bl d s : forall item st prev l, lines_unquoted st s = true \/ d <> newline -> has_char d s = false \/ d = newline ->
  (forall x, item = Some x -> has_char d x = false) -> read bl item st prev s = Some l -> Forall (fun e => has_char d (fst e) = false) l.
Proof.
  assert (EM : forall item b r l, (forall x, item = Some x -> has_char d x = false) -> (forall l, r = Some l -> Forall (fun e => has_char d (fst e) = false) l) ->
    emit item b r = Some l -> Forall (fun e => has_char d (fst e) = false) l).
  { intros item b r l I R E. destruct item as [x|]; cbn in E; [|now apply R]. destruct r as [k|]; [|discriminate]. injection E as <-. constructor; [now apply I|now apply R]. }
  assert (NI : forall item x, (forall x, item = Some x -> has_char d x = false) -> Some (match item with None => "" | Some x => x end) = Some x -> has_char d x = false).
  { intros item x I [= <-]. destruct item; [now apply I|reflexivity]. }
  assert (AD : forall item a x, (forall x, item = Some x -> has_char d x = false) -> Ascii.eqb d a = false -> add item a = Some x -> has_char d x = false).
  { intros item a x I N [= <-]. destruct item as [y|]; [rewrite has_char_snoc, N, (I y) by reflexivity; reflexivity|]. cbn. now rewrite N. }
  induction s as [|a s IH]; intros item st prev l U N I E; cbn [read] in E.
  - destruct st; try discriminate; eapply EM; eauto; intros k [= <-]; constructor.
  - assert (N' : has_char d s = false \/ d = newline).
    { destruct N as [N|N]; [left|now right]. cbn in N. now apply orb_false_elim in N. }
    assert (NA : forall P : Prop, (d = newline -> Ascii.eqb a newline = false) -> Ascii.eqb d a = false).
    { intros _ H. destruct N as [N|N]; [cbn in N; now apply orb_false_elim in N|]. rewrite N, Ascii.eqb_sym. now apply H. }
    assert (SP : forall g, Ascii.eqb a "\" = g -> forall h, quote_char a = h -> True) by auto. clear SP.
    cbn [lines_unquoted] in U. destruct st.
    + assert (U' : Ascii.eqb a "\" = false -> quote_char a = false -> lines_unquoted Outside s = true \/ d <> newline).
      { intros E1 E2. rewrite E1, E2 in U. exact U. }
      assert (NQ : white_char a = true -> Ascii.eqb a "\" = false /\ quote_char a = false).
      { clear. destruct a as [[] [] [] [] [] [] [] []]; cbn; intros; try discriminate; split; reflexivity. }
      assert (BW : blank_char a = true -> white_char a = true) by (unfold white_char; intros ->; reflexivity).
      destruct (_ && white_char a) eqn:E1.
      { apply andb_prop in E1 as [_ E1]. apply NQ in E1 as (Q1 & Q2). apply IH in E; auto. intros x [= ]. }
      destruct (Ascii.eqb a newline) eqn:E2.
      { assert (W : white_char a = true) by (apply Ascii.eqb_eq in E2; now subst). apply NQ in W as (Q1 & Q2).
        eapply EM; [exact I| |exact E]. intros k E'. apply IH in E'; auto. intros x [= ]. }
      destruct (bl && blank_char a) eqn:E3.
      { apply andb_prop in E3 as [_ E3]. apply BW, NQ in E3 as (Q1 & Q2).
        eapply EM; [exact I| |exact E]. intros k E'. apply IH in E'; auto. intros x [= ]. }
      destruct (Ascii.eqb a "\") eqn:E4; [apply IH in E; auto; intros x; now apply NI|].
      destruct (quote_char a) eqn:E5; [apply IH in E; auto; intros x; now apply NI|].
      apply IH in E; auto. intros x. apply AD; [exact I|]. apply (NA True). intros _. first [exact E2|reflexivity].
    + destruct (Ascii.eqb a newline) eqn:E2; [discriminate|].
      assert (U' : lines_unquoted (if Ascii.eqb a q then Outside else Quoted q) s = true \/ d <> newline).
      { destruct U as [U|U]; [left|now right]. cbn in U. exact U. }
      destruct (Ascii.eqb a q).
      * apply IH in E; auto. intros x; now apply NI.
      * apply IH in E; auto. intros x. apply AD; [exact I|]. apply (NA True). auto.
    + assert (NL : d = newline -> Ascii.eqb a newline = false).
      { intros ->. destruct U as [U|U]; [|now destruct U]. apply andb_prop in U as [U _]. now apply negb_true_iff in U. }
      assert (U' : lines_unquoted Outside s = true \/ d <> newline).
      { destruct U as [U|U]; [left|now right]. now apply andb_prop in U. }
      apply IH in E; auto. intros x. apply AD; [exact I|]. apply (NA True). exact NL.
Qed.
Lemma harmless_endless o fl s : end_harmless o fl -> unquoted_lines s -> endless o fl s.
Proof.
  intros H (U & N) e l E R I. assert (S : separator o fl = None).
  { unfold end_string in E. destruct (separator o fl); [discriminate|reflexivity]. }
  unfold read_items in R. rewrite S in R. apply in_map_iff in I as ([x b] & X & I). cbn in X. subst x.
  assert (X : Forall (fun e => has_char newline (fst e) = false) l /\ Forall (fun e => has_char nul (fst e) = false) l).
  { split; eapply read_chars; try exact R; auto; intros x [= ]. }
  destruct X as (X1 & X2). rewrite Forall_forall in X1, X2. apply X1 in I as I1. apply X2 in I as I2. cbn [fst] in *. destruct (H e E); congruence.
Qed.

(** ** Unsafe uses *)
Lemma joined_perm l l' : Permutation l l' -> String.length (joined l) = String.length (joined l').
Proof. induction 1; cbn; rewrite ?append_length; try lia. unfold joined in *. lia. Qed.
Lemma joined_confirmed l l' : confirmed l l' -> String.length (joined l') <= String.length (joined l).
Proof. induction 1; cbn; rewrite ?append_length; unfold joined in *; lia. Qed.
Lemma may_length o fl ops l r : xargs_may o fl ops l r -> String.length r <= String.length (xargs_prints o fl ops l).
Proof.
  unfold xargs_may, xargs_prints. destruct (given fl ["--help"; "--version"]); [intros ->; lia|]. destruct (bad_number fl); [intros ->; cbn; lia|].
  intros (run & order & C & E & ->). apply ending_perm, joined_perm in E. rewrite <- E.
  assert (X : String.length (joined run) <= String.length (joined (printed o fl ops l))).
  { destruct (given fl ["-p"]); [now apply joined_confirmed|]. subst. lia. }
  eapply Nat.le_trans; [exact X|]. unfold printed. destruct (last_text fl ["-I"]); [lia|]. destruct l; [|lia]. destruct (given fl ["-r"]); [cbn; lia|]. cbn. rewrite append_nil. lia.
Qed.
(** A line with one item, whatever it is *)
Fixpoint escaped (e : string) : string := match e with "" => "''" | String c e' => String "\" (String c (escaped e')) end.
Lemma read_escaped bl e : forall x prev, read bl (Some x) Outside prev (escaped e +++ String newline "") = Some [(x +++ e, true)].
Proof.
  induction e as [|c e IH]; intros x prev.
  - rewrite append_nil. destruct bl; reflexivity.
  - cbn [escaped String.append read andb]. change (Ascii.eqb "\" newline) with false. change (blank_char "\") with false.
    rewrite andb_false_r. change (Ascii.eqb "\" "\") with true. cbv iota. unfold add. rewrite IH, append_assoc. reflexivity.
Qed.
Lemma read_escaped_first bl e : e <> "" -> read bl None Outside newline (escaped e +++ String newline "") = Some [(e, true)].
Proof.
  intros N. destruct e as [|c e]; [now destruct N|]. cbn [escaped String.append read andb]. change (white_char "\") with false. change (Ascii.eqb "\" newline) with false.
  change (blank_char "\") with false. rewrite andb_false_r. change (Ascii.eqb "\" "\") with true. cbv iota. unfold add. rewrite read_escaped. reflexivity.
Qed.
Lemma escaped_char d e : has_char d e = false -> Ascii.eqb d "\" = false -> Ascii.eqb d "'" = false -> has_char d (escaped e) = false.
Proof.
  intros H N1 N2. induction e as [|c e IH]; cbn in *; [now rewrite N2|]. apply orb_false_elim in H as [H1 H2]. now rewrite N1, H1, IH.
Qed.
Lemma escaped_unquoted e : has_char newline e = false -> lines_unquoted Outside (escaped e +++ String newline "") = true.
Proof.
  induction e as [|c e IH]; intros H; [reflexivity|]. cbn [has_char] in H. apply orb_false_elim in H as [H1 H2].
  cbn [escaped String.append lines_unquoted]. change (Ascii.eqb "\" "\") with true. cbv iota. rewrite Ascii.eqb_sym, H1. cbn [negb andb]. now apply IH.
Qed.
Definition probe9 (o : xargs_world) (fl : list wflag) : ascii :=
  match separator o fl with
  | Some d => if Ascii.eqb d "a" then "b" else "a"
  | None => match end_string o fl with Some e => if String.eqb e "a" then "b" else "a" | None => "a" end
  end%char.
Lemma fine_needed o fl ops : one_kind9 fl ->
  (forall a b, ends_line a -> tidy_lines (a +++ b) ->
     let w := mkXargsSystem (loud o) (fun _ => String (probe9 o fl) (String newline "")) in
     forall l m k, reads_items w fl a l -> reads_items w fl b m -> reads_items w fl (a +++ b) k ->
     String.length (xargs_prints (loud o) fl ops l) + String.length (xargs_prints (loud o) fl ops m) <= String.length (xargs_prints (loud o) fl ops k)) ->
  xargs_fine o fl /\ (bad_number fl = true \/ end_harmless o fl).
Proof.
  intros (K & KT & KA) H. cbv zeta in H. set (ch := probe9 o fl) in *. set (w := String ch (String newline "")) in *. set (W := mkXargsSystem (loud o) (fun _ => w)) in *.
  assert (EW : ends_line w) by (right; exists (String ch ""); reflexivity).
  assert (CH : ch = "a"%char \/ ch = "b"%char).
  { unfold ch, probe9. destruct (separator o fl) as [d|]; [destruct (Ascii.eqb d "a"); auto|]. destruct (end_string o fl) as [e|]; [destruct (String.eqb e "a"); auto|auto]. }
  assert (CD : separator o fl <> Some ch).
  { unfold ch, probe9. destruct (separator o fl) as [d|]; [|discriminate]. destruct (Ascii.eqb_spec d "a") as [->|N]; [discriminate|congruence]. }
  assert (CE : end_string o fl <> Some (String ch "")).
  { unfold ch, probe9. unfold end_string. destruct (separator o fl) as [d|]; [discriminate|]. fold (end_string o fl).
    destruct (last_text fl ["-E"]) as [e|]; [|discriminate]. destruct (String.eqb e ""); [discriminate|]. destruct (String.eqb_spec e "a") as [->|N]; [discriminate|congruence]. }
  assert (CL : forall k, k = "a"%char \/ k = "b"%char -> complete_line (String k "")).
  { intros k [-> | ->] y e l' E; vm_compute in E; destruct l' as [|p l']; [now injection E|injection E as _ E; now destruct l'|now injection E|injection E as _ E; now destruct l']. }
  assert (TIDY : tidy_lines (w +++ w) /\ tidy_lines (w +++ "")).
  { unfold w. clear -CH CL. clearbody ch. destruct CH as [-> | ->]; (split; (split; [split; reflexivity|])); vm_compute lines; repeat (apply Forall_cons; [apply CL; auto|]); apply Forall_nil. }
  destruct TIDY as (T2 & T1).
  assert (NUL : has_char nul w = false /\ has_char nul (w +++ w) = false).
  { unfold w. clear -CH. clearbody ch. destruct CH as [-> | ->]; split; reflexivity. }
  assert (UE : forall l, Forall (fun e => fst e = String ch "") l \/ separator o fl <> None -> until_end o fl l = l).
  { intros l [F|S]; unfold until_end.
    - destruct (end_string o fl) as [e|]; [|reflexivity]. apply up_to_all. intros I. apply in_map_iff in I as (p & E & I). rewrite Forall_forall in F. rewrite (F p I) in E. congruence.
    - unfold end_string. destruct (separator o fl); [reflexivity|now destruct S]. }
  assert (L2 : lines (w +++ w) = [String ch ""; String ch ""]) by (unfold w; clear -CH; clearbody ch; destruct CH as [-> | ->]; reflexivity).
  assert (L1 : lines w = [String ch ""]) by (unfold w; clear -CH; clearbody ch; destruct CH as [-> | ->]; reflexivity).
  (* items *)
  assert (RD : forall x, separator o fl = None \/ separator o fl = Some newline -> x = w +++ w \/ x = w \/ x = "" ->
    exists l, read_items (loud o) fl x = Some l /\ until_end o fl l = l /\ l = map (fun r => (r, true)) (lines x)).
  { intros x S X. exists (map (fun r => (r, true)) (lines x)). split; [|split; [|reflexivity]].
    - unfold read_items. rewrite separator_loud. destruct S as [-> | ->]; [|reflexivity]. unfold w in X. clear -CH X. clearbody ch.
      destruct CH as [E|E]; rewrite E in X; destruct X as [->|[->| ->]]; destruct (given fl ["-I"]); vm_compute; reflexivity.
    - apply UE. left. destruct X as [->|[->| ->]]; rewrite ?L2, ?L1; cbn; repeat constructor. }
  assert (RO : forall d, separator o fl = Some d -> d <> newline -> forall x, x = w +++ w \/ x = w ->
    exists l, read_items (loud o) fl x = Some l /\ until_end o fl l = l /\ l = [(x, true)]).
  { intros d S N x X. exists [(x, true)]. split; [|split; [apply UE; right; congruence|reflexivity]]. unfold read_items. rewrite separator_loud, S. assert (Y : records d x = [x]); [|now rewrite Y].
    assert (N' : Ascii.eqb d newline = false) by now apply Ascii.eqb_neq.
    assert (C' : Ascii.eqb d ch = false) by (apply Ascii.eqb_neq; congruence).
    apply records_one; destruct X as [-> | ->]; try discriminate; unfold w; cbn [String.append has_char]; now rewrite ?N', ?C'. }
  assert (SRCA : given fl ["-a"] = true -> forall x, source W fl x = w).
  { intros G x. unfold source. destruct (last_word_some fl "-a" KA G) as (y & ->). reflexivity. }
  assert (SRC : given fl ["-a"] = false -> forall x, source W fl x = x).
  { intros G x. unfold source. now rewrite last_word_none. }
  assert (RI : forall x l, read_items (loud o) fl (source W fl x) = Some l -> until_end o fl l = l -> has_char nul (source W fl x) = false -> reads_items W fl x l).
  { intros x l E U N. right; right. split; [|exact N]. unfold all_items. cbn [world W]. rewrite E. change (until_end (loud o) fl l) with (until_end o fl l). now rewrite U. }
  (* one group for one item *)
  assert (ONE : forall y, bad_number fl = false -> joined (map (appended (loud o) ops) (grouped fl [(y, true)])) = "x").
  { intros y BN. unfold grouped, bad_number in *. destruct (last_number fl ["-n"]) as [[|n]|], (last_number fl ["-L"]) as [[|k]|]; try discriminate BN;
      try (destruct n; reflexivity); try (destruct k; reflexivity); reflexivity. }
  unfold xargs_fine, xargs_safe. unfold xargs_prints in H. destruct (given fl ["--help"; "--version"]) eqn:HP.
  { exfalso. assert (X : forall x, reads_items W fl x []) by (left; exact HP).
    specialize (H w w EW T2 _ _ _ (X _) (X _) (X _)). cbn in H. lia. }
  destruct (bad_number fl) eqn:BN.
  { split; [split; [split; [reflexivity|]|]|]; now left. }
  assert (P1 : forall y, String.length (match last_text fl ["-I"] with
    | Some r => joined (map (replaced (loud o) ops r) (map fst [(y, true)])) | None => joined (map (appended (loud o) ops) (grouped fl [(y, true)])) end) = 1).
  { intros y. destruct (last_text fl ["-I"]) as [r|]; [reflexivity|]. now rewrite ONE. }
  assert (GA : given fl ["-a"] = false).
  { destruct (given fl ["-a"]) eqn:GA; [exfalso|reflexivity]. specialize (SRCA eq_refl).
    assert (X : exists y, forall x, reads_items W fl x [(y, true)]).
    { assert (Y : exists y, read_items (loud o) fl w = Some [(y, true)] /\ until_end o fl [(y, true)] = [(y, true)]).
      { assert (Z : (separator o fl = None \/ separator o fl = Some newline) \/ exists d, separator o fl = Some d /\ d <> newline).
        { destruct (separator o fl) as [d|]; [|auto]. destruct (Ascii.eqb_spec d newline) as [->|N]; eauto. }
        destruct Z as [S|(d & S & N)].
        - destruct (RD w S ltac:(auto)) as (l & E & U & ->). rewrite L1 in E, U. exists (String ch ""). split; [exact E|exact U].
        - destruct (RO d S N w ltac:(auto)) as (l & E & U & ->). eauto. }
      destruct Y as (y & E & U). exists y. intros x. apply RI; rewrite ?SRCA; auto. apply NUL. }
    destruct X as (y & X). specialize (H w w EW T2 _ _ _ (X _) (X _) (X _)). cbv iota in H. rewrite !P1 in H. lia. }
  specialize (SRC GA). clear SRCA.
  assert (RI' : forall x l, read_items (loud o) fl x = Some l /\ until_end o fl l = l -> has_char nul x = false -> reads_items W fl x l).
  { intros x l (E & U) N. apply RI; rewrite ?SRC; auto. }
  clear RI.
  assert (SEP : separator o fl = None \/ separator o fl = Some newline).
  { destruct (separator o fl) as [d|] eqn:S; [|now left]. destruct (Ascii.eqb_spec d newline) as [->|N]; [now right|exfalso].
    destruct (RO d eq_refl N w ltac:(auto)) as (l & E & U & El). destruct (RO d eq_refl N (w +++ w) ltac:(auto)) as (l2 & E2 & U2 & El2). subst l l2.
    specialize (H w w EW T2 _ _ _ (RI' _ _ (conj E U) (proj1 NUL)) (RI' _ _ (conj E U) (proj1 NUL)) (RI' _ _ (conj E2 U2) (proj2 NUL))). cbv iota in H. rewrite !P1 in H. lia. }
  destruct (RD w SEP ltac:(auto)) as (l1 & E1 & U1 & El1). destruct (RD (w +++ w) SEP ltac:(auto)) as (l2 & E2 & U2 & El2). destruct (RD "" SEP ltac:(auto)) as (l0 & E0 & U0 & El0).
  rewrite L1 in El1. rewrite L2 in El2. change (lines "") with (@nil string) in El0. cbn [map] in El0, El1, El2. subst l0 l1 l2.
  assert (X2 := H w w EW T2 _ _ _ (RI' _ _ (conj E1 U1) (proj1 NUL)) (RI' _ _ (conj E1 U1) (proj1 NUL)) (RI' _ _ (conj E2 U2) (proj2 NUL))).
  assert (X1 := H w "" EW T1 _ _ _ (RI' _ _ (conj E1 U1) (proj1 NUL)) (RI' _ _ (conj E0 U0) eq_refl) ltac:(rewrite append_nil; apply RI'; [split; [exact E1|exact U1]|apply NUL])).
  cbv iota in X1, X2. rewrite !P1 in X1, X2.
  assert (SAFE : given fl ["-I"] = true \/ given fl ["-r"] = true /\ (last_number fl ["-n"] = Some 1 \/ last_number fl ["-L"] = Some 1)).
  { destruct (given fl ["-I"]) eqn:GI; [now left|right]. destruct (last_none fl "-I" GI) as (_ & LI). rewrite LI in X1, X2.
    destruct (given fl ["-r"]); [|cbn in X1; lia]. split; [reflexivity|]. clear X1.
    unfold grouped, bad_number in *. destruct (last_number fl ["-n"]) as [[|[|n]]|] eqn:LN.
    - destruct (last_number fl ["-L"]) as [[|]|]; discriminate BN.
    - now left.
    - exfalso. destruct (last_number fl ["-L"]) as [[|]|]; [discriminate BN| |]; destruct n; cbn in X2; lia.
    - right. destruct (last_number fl ["-L"]) as [[|[|n]]|]; [discriminate BN|reflexivity| |]; exfalso; [destruct n; cbn in X2; lia|cbn in X2; lia]. }
  split; [split; [split; [reflexivity|right; split; [exact SEP|exact SAFE]]|now right]|right].
  intros e ES. destruct (has_char newline e) eqn:NE; [now left|]. destruct (has_char nul e) eqn:NU; [now right|exfalso].
  assert (S : separator o fl = None) by (unfold end_string in ES; destruct (separator o fl); [discriminate|reflexivity]).
  assert (NEE : e <> "").
  { unfold end_string in ES. rewrite S in ES. destruct (last_text fl ["-E"]) as [e'|]; [|discriminate]. destruct (String.eqb_spec e' ""); [discriminate|congruence]. }
  set (line := escaped e +++ String newline "").
  assert (EL : ends_line line) by (right; eexists; reflexivity).
  assert (NB : has_char newline (escaped e) = false) by (now apply escaped_char).
  assert (NN : has_char nul line = false) by (unfold line; rewrite has_char_app, escaped_char by auto; reflexivity).
  assert (TI : tidy_lines (line +++ w)).
  { split; [split|].
    - unfold line. rewrite append_assoc. cbn [String.append]. rewrite unquoted_app, escaped_unquoted by exact NE. clear -CH. unfold w. clearbody ch. destruct CH as [-> | ->]; reflexivity.
    - rewrite has_char_app, NN. apply NUL.
    - unfold lines. rewrite records_app by exact EL. fold (lines line) (lines w). rewrite L1.
      assert (LL : lines line = [escaped e]).
      { unfold line, lines. now rewrite records_terminated_one. }
      rewrite LL. apply Forall_cons; [|apply Forall_cons; [now apply CL|constructor]].
      unfold complete_line. fold line. unfold line. rewrite read_escaped_first by exact NEE. intros y b l' E. destruct l' as [|? l']; [now injection E|injection E as _ E; now destruct l']. }
  assert (RL : forall bl, read bl None Outside newline line = Some [(e, true)]) by (intros; now apply read_escaped_first).
  assert (EMP : forall k, until_end o fl ((e, true) :: k) = []) by (intros k; unfold until_end; rewrite ES; cbn; now rewrite String.eqb_refl).
  assert (R1 : reads_items W fl line []).
  { right; right. split; [|rewrite SRC; exact NN]. unfold all_items, read_items. rewrite SRC. cbn [world W]. rewrite separator_loud, S, RL. change (until_end (loud o)) with (until_end o). now rewrite EMP. }
  assert (R2 : reads_items W fl (line +++ w) []).
  { right; right. split; [|rewrite SRC, has_char_app, NN; apply NUL]. unfold all_items, read_items. rewrite SRC. cbn [world W]. rewrite separator_loud, S.
    unfold line. rewrite append_assoc. cbn [String.append]. rewrite read_app by (now apply escaped_unquoted). fold line. rewrite RL.
    unfold read_items in E1. rewrite separator_loud, S in E1. rewrite E1. cbn [both app]. change (until_end (loud o)) with (until_end o). now rewrite EMP. }
  specialize (H line w EL TI _ _ _ R1 (RI' _ _ (conj E1 U1) (proj1 NUL)) R2). cbv iota in H. rewrite P1 in H.
  destruct SAFE as [GI|(GR & _)].
  - destruct (last_some fl "-I" K) as (t & LI & _); [cbn; auto|exact GI|]. rewrite LI in H. cbn in H. lia.
  - destruct (last_text fl ["-I"]); [cbn in H; lia|]. rewrite GR in H. cbn in H. lia.
Qed.
