(** * Proofs about aggregators for adjacent lines *)
From Coq Require Import Lia.
Require Import Verif.PyBase Verif.JsonData Verif.Parser Verif.Access Verif.IOInfo Verif.IOVars
  Verif.Transformers Verif.ParaTypes Verif.ParaGen Verif.MapperAgg Verif.SpecLists Verif.SpecIO Verif.SpecVars Verif.SpecPara
  Verif.ParserFacts Verif.ParaProps Verif.ShippedData Verif.P_Para Verif.SpecSem Verif.SemFacts Verif.SemRun Verif.SemProps Verif.SpecSem2 Verif.SemProps2 Verif.SpecSem3.

(** ** Plans *)
Lemma pieces_app l1 l2 : Forall ends_line (removelast (l1 ++ l2)) ->
  Forall ends_line (removelast l1) /\ Forall ends_line (removelast l2) /\ (Forall ends_line l1 \/ l2 = []).
Proof.
  intros H. destruct l2 as [|x l2].
  - rewrite app_nil_r in H. cbn. auto.
  - rewrite removelast_app in H by discriminate. apply Forall_app in H as (H1 & H2). repeat split; auto.
    clear -H1. induction l1 as [|y l1 IH]; [constructor|]. inversion H1; subst. destruct l1; [constructor|]. constructor; auto.
Qed.
Lemma ends_app a b : ends_line a -> ends_line b -> ends_line (a +++ b).
Proof.
  intros A [->|(t & ->)]; [now rewrite append_nil|]. right. exists (a +++ t). now rewrite append_assoc.
Qed.
Lemma ends_joined l : Forall ends_line l -> ends_line (joined l).
Proof. induction 1; [now left|]. cbn. now apply ends_app. Qed.
Lemma adjacent_empty f x : adjacent f x "" = x.
Proof.
  unfold adjacent. destruct (rev (lines x)) eqn:E; cbn [lines records]; [|reflexivity].
  symmetry. apply (records_nil newline). rewrite <- (rev_involutive (records newline x)). unfold lines in E. now rewrite E.
Qed.
Lemma combine_pieces f F : F "" = "" -> (forall a b, ends_line a -> adjacent f (F a) (F b) = F (a +++ b)) ->
  forall ls, Forall ends_line (removelast (List.concat ls)) ->
  combine_adjacent f (map (fun l => F (joined l)) ls) = F (joined (List.concat ls)).
Proof.
  intros F0 H ls. destruct ls as [|l ls]; [intros _; cbn; now rewrite F0|]. cbn [map combine_adjacent List.concat].
  revert l. induction ls as [|l' ls IH]; intros l P; cbn [map fold_left List.concat]; [now rewrite app_nil_r|].
  cbn [List.concat] in P. rewrite app_assoc in P |- *. rewrite <- IH by exact P. f_equal.
  rewrite joined_app. apply pieces_app in P as (P & _). apply pieces_app in P as (_ & _ & [P| ->]).
  - apply H. now apply ends_joined.
  - cbn. now rewrite F0, adjacent_empty, append_nil.
Qed.
Lemma adj_all B p c s f ts g : Forall (fun t => adj_evaluates B p c s f t (g t)) ts -> adj_evaluate_all B p c s f ts (map g ts).
Proof. induction 1; cbn; constructor; auto. Qed.
Lemma adj_plan B p c i s f F : reads_one c i -> p_mapper p = seq_mapper -> p_info_mapper_aggregator p = 0 ->
  F "" = "" -> (forall sd a b, ends_line a -> adjacent (f sd) (F a) (F b) = F (a +++ b)) ->
  (forall seed x, B seed (v_cmd c) (map (wflag_of c s) (v_flags c)) (map (word_of c s) (v_ops c)) [x] = F x) ->
  forall t, fresh_plan c t -> Forall ends_line (removelast (map s (parts t))) ->
  adj_evaluates B p c s f t (F (joined (map s (parts t)))).
Proof.
  intros R M N F0 H HB. induction t as [x y seed|o seed ts IH] using plan_rect'; intros FR P.
  - destruct FR as (ND & FR). cbn in *. inversion ND as [|? ? Ni _]; subst.
    destruct (mapper_run p c i x y R M N) as (m & G & W & E); [intros ->; apply Ni; now left|apply FR; now left|apply FR; right; now left|].
    rewrite append_nil, <- (HB seed), <- E. now constructor.
  - pose proof (fresh_children _ _ _ _ FR) as FC. cbn [parts] in *.
    assert (E : map s (flat_map parts ts) = List.concat (map (fun t => map s (parts t)) ts)).
    { clear. induction ts; cbn; [reflexivity|]. now rewrite map_app, IHts. }
    rewrite E in *. rewrite <- (combine_pieces (f seed) F F0 (H seed)) by exact P. rewrite map_map. constructor.
    apply adj_all. clear E FR. rewrite Forall_forall in IH, FC |- *. intros t I. apply IH; auto.
    clear IH FC. induction ts as [|t' ts IHts]; [destruct I|]. cbn in P. apply pieces_app in P as (P1 & P2 & _).
    destruct I as [<-|I]; auto.
Qed.
Lemma adj_fun_eq B p c s f t : forall r r', adj_evaluates B p c s f t r -> adj_evaluates B p c s f t r' -> r = r'.
Proof.
  induction t as [x y sd|q sd ts IH] using plan_rect'; intros r r' E E'; inversion E; subst; inversion E'; subst.
  - congruence.
  - f_equal. clear E E'. rename outs into l, outs0 into l'. rename H3 into A, H4 into A'. revert l l' A A'.
    induction IH as [|t ts H _ IH]; intros l l' A A'; inversion A; subst; inversion A'; subst; [reflexivity|]. f_equal; eauto.
Qed.
(** Words do not depend on the content of the streaming input. *)
Lemma seq_fun_run B c i s seed text : reads_one c i ->
  adj_seq_fun B c i s seed text = B seed (v_cmd c) (map (wflag_of c s) (v_flags c)) (map (word_of c s) (v_ops c)) [text].
Proof.
  intros R. unfold adj_seq_fun. rewrite (run_original B seed c i _ R).
  destruct (words_only c i (connect [i] [text] s) s R) as (-> & ->).
  - intros v _ N. apply connect_out. intros [E|[]]. now apply N.
  - cbn. now rewrite Z.eqb_refl.
Qed.

Lemma last_cons {A} (l : list A) : forall a d, List.last (a :: l) d = List.last l a.
Proof. induction l as [|x l IH]; intros a d; [reflexivity|]. change (List.last (a :: x :: l) d) with (List.last (x :: l) d). rewrite IH. destruct l; [reflexivity|]. symmetry. apply IH. Qed.

(** ** uniq *)
Section Uniq.
  Variable eq : string -> string -> bool.
  Hypothesis EQ : equivalence eq.
  Definition firsts (l : list (list string)) : list string := flat_map (fun g => match g with x :: _ => [x] | [] => [] end) l.
  (** The lines that differ from the first line of the block before *)
  Fixpoint news (a : string) (l : list string) : list string :=
    match l with [] => [] | x :: l' => if eq a x then news a l' else x :: news x l' end.
  Lemma eq_same a b x : eq a b = true -> eq a x = eq b x.
  Proof.
    destruct EQ as (R & S & T). intros E. destruct (eq a x) eqn:A, (eq b x) eqn:B; auto.
    - rewrite (T b a x) in B; [discriminate|now rewrite S|exact A].
    - rewrite (T a b x E) in A; [discriminate|exact B].
  Qed.
  Lemma news_same a b l : eq a b = true -> news a l = news b l.
  Proof. intros E. induction l as [|x l IH]; [reflexivity|]. cbn. now rewrite (eq_same a b x E), IH. Qed.
  Lemma blocks_head x l : exists g gs, blocks eq (x :: l) = (x :: g) :: gs.
  Proof. cbn. destruct (blocks eq l) as [|[|y g] gs]; eauto. destruct (eq x y); eauto. Qed.
  Lemma firsts_news x l : firsts (blocks eq (x :: l)) = x :: news x l.
  Proof.
    revert x. induction l as [|y l IH]; intros x; [reflexivity|].
    destruct (blocks_head y l) as (g & gs & E). specialize (IH y). cbn [blocks]. cbn [blocks] in E. rewrite E. cbn [blocks] in IH. rewrite E in IH.
    cbn [news]. destruct (eq x y) eqn:EX.
    - cbn in *. injection IH as IH. rewrite IH. f_equal. symmetry. now apply news_same.
    - cbn in *. injection IH as IH. now rewrite IH.
  Qed.
  Lemma news_app l2 l1 : forall a, news a (l1 ++ l2) = news a l1 ++ news (List.last (news a l1) a) l2.
  Proof.
    induction l1 as [|x l1 IH]; intros a; [reflexivity|]. cbn. destruct (eq a x) eqn:E; [apply IH|].
    rewrite IH, last_cons. reflexivity.
  Qed.
  (** The blocks separated by empty lines *)
  Fixpoint steps (a : string) (l : list string) : list string :=
    match l with [] => [] | x :: l' => if eq a x then x :: steps x l' else "" :: x :: steps x l' end.
  Lemma separated_steps x l : separated (blocks eq (x :: l)) = x :: steps x l.
  Proof.
    revert x. induction l as [|y l IH]; intros x; [reflexivity|].
    destruct (blocks_head y l) as (g & gs & E). specialize (IH y). cbn [blocks]. cbn [blocks] in E, IH. rewrite E in IH |- *.
    cbn [steps]. destruct (eq x y) eqn:EX.
    - cbn [separated] in *. destruct gs; cbn [app] in *; now rewrite IH.
    - change (separated ([x] :: (y :: g) :: gs)) with (x :: "" :: separated ((y :: g) :: gs)). now rewrite IH.
  Qed.
  Lemma steps_app l2 l1 : forall a, steps a (l1 ++ l2) = steps a l1 ++ steps (List.last l1 a) l2.
  Proof.
    induction l1 as [|x l1 IH]; intros a; [reflexivity|]. cbn [app steps]. rewrite IH.
    rewrite last_cons. now destruct (eq a x).
  Qed.
  Lemma steps_last l : forall a, List.last (a :: steps a l) "" = List.last (a :: l) "".
  Proof.
    induction l as [|x l IH]; intros a; [reflexivity|]. cbn [steps].
    destruct (eq a x); [change (List.last (x :: steps x l) "" = List.last (x :: l) "")|change (List.last (x :: steps x l) "" = List.last (x :: l) "")]; apply IH.
  Qed.
End Uniq.
Definition uniq_out (eq : string -> string -> bool) (grouping : bool) (l : list string) : list string :=
  if grouping then separated (blocks eq l) else firsts (blocks eq l).
Lemma uniq_out_app eq grouping l1 l2 : equivalence eq -> forall a before b after,
  rev (uniq_out eq grouping l1) = a :: before -> uniq_out eq grouping l2 = b :: after ->
  uniq_out eq grouping (l1 ++ l2) = rev before ++ uniq_out eq grouping [a; b] ++ after.
Proof.
  intros EQ a before b after E1 E2. destruct l1 as [|x l1]; [destruct grouping; discriminate|]. destruct l2 as [|y l2]; [destruct grouping; discriminate|].
  assert (E1' : uniq_out eq grouping (x :: l1) = rev before ++ [a]) by (rewrite <- (rev_involutive (uniq_out _ _ _)), E1; reflexivity).
  clear E1. destruct grouping; cbn [uniq_out] in *.
  - rewrite separated_steps in E1', E2. change ((x :: l1) ++ y :: l2) with (x :: l1 ++ y :: l2). rewrite !separated_steps, steps_app.
    injection E2 as -> <-.
    assert (A : a = List.last l1 x).
    { rewrite <- (last_cons l1 x ""). rewrite <- (steps_last eq). rewrite E1'. now rewrite last_last. }
    rewrite app_comm_cons, E1', <- app_assoc. rewrite <- A. f_equal. cbn [steps app]. destruct (eq a b); reflexivity.
  - rewrite firsts_news in E1', E2 by exact EQ. change ((x :: l1) ++ y :: l2) with (x :: l1 ++ y :: l2).
    rewrite !firsts_news, news_app by exact EQ. injection E2 as -> <-.
    assert (A : a = List.last (news eq x l1) x).
    { rewrite <- (last_cons (news eq x l1) x ""). rewrite E1'. symmetry. apply last_last. }
    rewrite app_comm_cons, E1', <- app_assoc. rewrite <- A. f_equal. cbn [news app]. destruct (eq a b) eqn:E; [|reflexivity].
    cbn. f_equal. now apply news_same.
Qed.
Lemma uniq_clean eq grouping l : equivalence eq -> Forall (fun r => has_char newline r = false) l ->
  Forall (fun r => has_char newline r = false) (uniq_out eq grouping l).
Proof.
  intros EQ. destruct l as [|x l]; [destruct grouping; constructor|]. unfold uniq_out. rewrite separated_steps, firsts_news by exact EQ.
  intros H. inversion H as [|? ? H1 H2]; subst. clear H. revert x H1. destruct grouping.
  - induction H2 as [|y l H2 _ IH]; intros x H1; [cbn; auto|]. cbn [steps]. destruct (eq x y); repeat (constructor; auto).
  - induction H2 as [|y l H2 _ IH]; intros x H1; [cbn; auto|]. cbn [news]. destruct (eq x y); [now apply IH|]. constructor; auto.
Qed.
Lemma uniq_adjacent eq grouping a b : equivalence eq -> ends_line a ->
  let F x := unlines (uniq_out eq grouping (lines x)) in adjacent F (F a) (F b) = F (a +++ b).
Proof.
  intros EQ EA F. unfold adjacent.
  assert (L : forall x, lines (F x) = uniq_out eq grouping (lines x)) by (intros x; apply records_terminated, uniq_clean; auto; apply records_clean).
  rewrite !L. 
  replace (F (a +++ b)) with (unlines (uniq_out eq grouping (lines a ++ lines b))) by (unfold F, lines; now rewrite records_app by exact EA).
  assert (N : forall l, uniq_out eq grouping l = [] -> l = []).
  { intros [|x l]; [reflexivity|]. unfold uniq_out. rewrite separated_steps, firsts_news by exact EQ. destruct grouping; discriminate. }
  destruct (rev (uniq_out eq grouping (lines a))) as [|z zs] eqn:EZ.
  { assert (E : uniq_out eq grouping (lines a) = []) by (rewrite <- (rev_involutive (uniq_out _ _ _)), EZ; reflexivity).
    apply N in E. now rewrite E. }
  destruct (uniq_out eq grouping (lines b)) as [|w ws] eqn:EW.
  { apply N in EW. now rewrite EW, app_nil_r. }
  rewrite (uniq_out_app eq grouping _ _ EQ z zs w ws EZ EW).
  unfold F, unlines. rewrite !terminated_app. do 3 f_equal. f_equal. unfold lines. rewrite records_terminated; [reflexivity|].
  assert (C1 : Forall (fun r => has_char newline r = false) (z :: zs)) by (rewrite <- EZ; apply Forall_rev, uniq_clean; auto; apply records_clean).
  assert (C2 : Forall (fun r => has_char newline r = false) (w :: ws)) by (rewrite <- EW; apply uniq_clean; auto; apply records_clean).
  inversion C1; inversion C2; subst. auto.
Qed.

(** ** Two pieces *)
Lemma two_pieces B p c i k f s a b : reads_one c i -> tight c -> In p (stateless k) -> ends_line a ->
  (forall sd, B sd (v_cmd c) (map (wflag_of c s) (v_flags c)) (map (word_of c s) (v_ops c)) [a] = f a) ->
  (forall sd, B sd (v_cmd c) (map (wflag_of c s) (v_flags c)) (map (word_of c s) (v_ops c)) [b] = f b) ->
  exists s' t, fresh_plan c t /\ distributes (p_splitter p) (s' i) (map s' (parts t)) /\ s' i = a +++ b /\
    (map (wflag_of c s') (v_flags c) = map (wflag_of c s) (v_flags c) /\ map (word_of c s') (v_ops c) = map (word_of c s) (v_ops c)) /\
    adj_evaluates B p c s' (adj_fun (agg_kind_of (p_aggregator p)) B c i s') t
      (adjacent (adj_fun (agg_kind_of (p_aggregator p)) B c i s' 0) (f a) (f b)).
Proof.
  intros R T I EA HA HB. destruct (fresh_vars c i T) as (z & Z1 & Z2).
  set (s' := connect [i; z; z + 1]%Z [a +++ b; a; b] s).
  set (t := Node (z + 4)%Z 0 [Leaf z (z + 2)%Z 0; Leaf (z + 1)%Z (z + 3)%Z 0]).
  assert (Si : s' i = a +++ b) by (unfold s'; cbn; now rewrite Z.eqb_refl).
  assert (S1 : s' z = a).
  { unfold s'; cbn. destruct (Z.eqb_spec z i); [lia|]. now rewrite Z.eqb_refl. }
  assert (S2 : s' (z + 1)%Z = b).
  { unfold s'; cbn -[Z.add]. destruct (Z.eqb_spec (z + 1) i); [lia|]. destruct (Z.eqb_spec (z + 1) z); [lia|]. now rewrite Z.eqb_refl. }
  assert (W : map (wflag_of c s') (v_flags c) = map (wflag_of c s) (v_flags c) /\ map (word_of c s') (v_ops c) = map (word_of c s) (v_ops c)).
  { apply (words_only c i s' s R). intros v J N. apply connect_out. intros [E|[E|[E|[]]]]; [now apply N| |]; apply (Z2 v); auto; lia. }
  exists s', t. split; [|split; [|split; [exact Si|split; [exact W|]]]].
  - split; [cbn; repeat constructor; cbn; lia|]. intros v J. apply Z2. cbn in J. lia.
  - cbn [parts t flat_map map app]. rewrite Si, S1, S2.
    assert (X : cut_at_lines (a +++ b) [a; b]) by (split; [cbn; now rewrite append_nil|apply (Forall_cons a EA), Forall_nil]).
    destruct I as [<-|[<-|[]]]; exact X.
  - destruct W as (W1 & W2).
    assert (M : p_mapper p = seq_mapper /\ p_info_mapper_aggregator p = 0) by (destruct I as [<-|[<-|[]]]; auto).
    destruct M as (M1 & M2).
    assert (X : forall x y, x <> y -> (z <= x)%Z -> (z <= y)%Z -> exists m, get_actual_mapper p c x y [] = Ok (Some m) /\ writes m y /\
      run B 0 m s' = B 0 (v_cmd c) (map (wflag_of c s) (v_flags c)) (map (word_of c s) (v_ops c)) [s' x]).
    { intros x y N L1 L2. destruct (mapper_run p c i x y R M1 M2 N (Z2 x L1) (Z2 y L2)) as (m & G & W & Rm). exists m. split; [exact G|].
      split; [exact W|]. rewrite Rm, W1, W2. reflexivity. }
    destruct (X z (z + 2)%Z) as (m1 & G1 & V1 & R1); [lia..|]. destruct (X (z + 1)%Z (z + 3)%Z) as (m2 & G2 & V2 & R2); [lia..|].
    rewrite S1, HA in R1. rewrite S2, HB in R2. rewrite <- R1, <- R2.
    change (adj_evaluates B p c s' (adj_fun (agg_kind_of (p_aggregator p)) B c i s') t
      (combine_adjacent (adj_fun (agg_kind_of (p_aggregator p)) B c i s' 0) [run B 0 m1 s'; run B 0 m2 s'])).
    repeat (constructor; auto).
Qed.
Lemma adjacent_complete B p c i s a b f : reads_one c i -> tight c -> In p (stateless adj_seq) -> ends_line a ->
  (forall sd x, B sd (v_cmd c) (map (wflag_of c s) (v_flags c)) (map (word_of c s) (v_ops c)) [x] = f x) ->
  adjacent_ok B p c i -> f (a +++ b) = adjacent f (f a) (f b).
Proof.
  intros R T I EA HB OK. destruct (two_pieces B p c i adj_seq f s a b R T I EA) as (s' & t & F & D & Si & (W1 & W2) & E); [auto..|].
  specialize (OK s' t 0 F D). apply (adj_fun_eq _ _ _ _ _ _ _ _ OK) in E. rewrite (run_original B 0 c i s' R), W1, W2, Si, HB in E.
  rewrite E. assert (K : agg_kind_of (p_aggregator p) = ADJ_LINES_SEQ) by (destruct I as [<-|[<-|[]]]; reflexivity).
  rewrite K. cbn [adj_fun].
  assert (X : forall text, adj_seq_fun B c i s' 0 text = f text) by (intros text; rewrite (seq_fun_run B c i s' 0 text R), W1, W2; apply HB).
  unfold adjacent. destruct (rev (lines (f a))), (lines (f b)); auto. now rewrite X.
Qed.
Lemma adjacent_differs B p c i s a b f : reads_one c i -> tight c -> In p (stateless adj_seq) -> ends_line a ->
  (forall sd x, B sd (v_cmd c) (map (wflag_of c s) (v_flags c)) (map (word_of c s) (v_ops c)) [x] = f x) ->
  f (a +++ b) <> adjacent f (f a) (f b) -> adjacent_wrong B p c i.
Proof.
  intros R T I EA HB NE. destruct (two_pieces B p c i adj_seq f s a b R T I EA) as (s' & t & F & D & Si & (W1 & W2) & E); [auto..|].
  exists s', t. eexists. split; [exact F|]. split; [exact D|]. split; [exact E|]. intros sd X. apply NE.
  rewrite (run_original B sd c i s' R), W1, W2, Si, HB in X.
  rewrite <- X. assert (K : agg_kind_of (p_aggregator p) = ADJ_LINES_SEQ) by (destruct I as [<-|[<-|[]]]; reflexivity).
  rewrite K. cbn [adj_fun].
  assert (Y : forall text, adj_seq_fun B c i s' 0 text = f text) by (intros text; rewrite (seq_fun_run B c i s' 0 text R), W1, W2; apply HB).
  unfold adjacent. destruct (rev (lines (f a))), (lines (f b)); auto. now rewrite Y.
Qed.

(** ** uniq: when it is sound *)
Lemma uniq_stateless inv p : cmd_name inv = "uniq" -> offered shipped_dir inv p -> ~ uses inv "-c" -> In p (stateless adj_seq).
Proof.
  intros C (i & k & ls & i' & l & G & CA & IL & I) U. apply (C28_only_sort shipped_dir inv i k ls i' l G) in CA as ->; auto.
  2: { rewrite C. intros [E|[E|[]]]; discriminate. }
  assert (A : annotated shipped_dir inv (Some (parallelizer_list i, is_commutative i))) by (apply C25_exact; now rewrite G).
  remember (parallelizer_list i) as l eqn:El. clear El.
  inversion A; subst; auto; try solve [destruct I]; exfalso; cbn in *; try (intuition congruence).
Qed.
Lemma uniq_offered_plain inv p : cmd_name inv = "uniq" -> offered shipped_dir inv p -> ~ uses_any inv ["-d"; "-D"; "--all-repeated"].
Proof.
  intros C (i & k & ls & i' & l & G & CA & IL & I) U. apply (C28_only_sort shipped_dir inv i k ls i' l G) in CA as ->; auto.
  2: { rewrite C. intros [E|[E|[]]]; discriminate. }
  assert (A : annotated shipped_dir inv (Some (parallelizer_list i, is_commutative i))) by (apply C25_exact; now rewrite G).
  remember (parallelizer_list i) as l eqn:El. clear El.
  inversion A; subst; auto; try solve [destruct I]; try (exfalso; cbn in *; intuition congruence).
  match goal with H : ~ uses_any inv _ |- _ => apply H end. destruct U as (n & J & U). exists n. split; [cbn in *; tauto|exact U].
Qed.
(** Options with which uniq does not print the first line of every block *)
Definition uniq_bad (fl : list wflag) : Prop :=
  given fl ["-u"; "-z"; "--help"; "--version"] = true \/
  (exists m, group_method fl = Some m /\ In m ["prepend"; "append"; "both"]).
Lemma given_split fl l l' : given fl (l ++ l') = given fl l || given fl l'.
Proof.
  unfold given. induction fl as [|f fl IH]; [reflexivity|]. cbn [existsb]. rewrite IH.
  assert (E : mem (wflag_name f) (l ++ l') = mem (wflag_name f) l || mem (wflag_name f) l') by (unfold mem; apply existsb_app).
  rewrite E. destruct (mem (wflag_name f) l), (mem (wflag_name f) l'); cbn [orb]; now rewrite ?orb_true_r.
Qed.
Lemma uniq_plain o fl x : ~ uniq_bad fl ->
  uniq_output o fl x = unlines (uniq_out (uniq_same o fl) (match group_method fl with Some _ => true | None => false end) (lines x)).
Proof.
  intros N. unfold uniq_output.
  assert (G : given fl ["-u"; "-z"; "--help"; "--version"] = false) by (destruct (given fl ["-u"; "-z"; "--help"; "--version"]) eqn:E; auto; exfalso; apply N; now left).
  change ["-u"; "-z"; "--help"; "--version"] with (["-u"] ++ ["-z"] ++ ["--help"; "--version"]) in G. rewrite !given_split in G.
  apply orb_false_iff in G as (G1 & G). apply orb_false_iff in G as (G2 & G3). rewrite G1, G2, G3.
  unfold unlines, uniq_out, lines. f_equal. destruct (group_method fl) as [m|] eqn:M; [|reflexivity].
  unfold grouped. destruct (String.eqb_spec m "prepend"), (String.eqb_spec m "append"), (String.eqb_spec m "both"); try reflexivity;
    exfalso; apply N; right; exists m; cbn; auto.
Qed.
Lemma eqb_equivalence : equivalence String.eqb.
Proof.
  split; [exact String.eqb_refl|]. split; [exact String.eqb_sym|]. intros x y z H1 H2. apply String.eqb_eq in H1 as ->. exact H2.
Qed.
Definition plain_uniq : uniq_oracle := mkUniq (fun _ => String.eqb) "usage
uniq
".
Definition uniq_system (o : uniq_oracle) : behaviour := fun _ _ fl _ inputs => uniq_output o fl (joined inputs).
Lemma uniq_system_ok o : (forall fl, equivalence (uniq_same o fl)) -> is_uniq o (uniq_system o).
Proof. intros H. split; [exact H|]. intros. unfold uniq_system. cbn [joined fold_right]. now rewrite append_nil. Qed.
Lemma uniq_run text inv c s o B : parse shipped_dir text = Ok inv -> cmd_name inv = "uniq" -> invocation_of inv c ->
  ~ uses_any inv ["-d"; "-D"; "--all-repeated"] -> ~ uses inv "-" -> ~ uses inv "-c" -> ~ (uses inv "-u" /\ uses inv "--group") -> is_uniq o B ->
  forall sd x, B sd (v_cmd c) (map (wflag_of c s) (v_flags c)) (map (word_of c s) (v_ops c)) [x] = uniq_output o (map (wflag_of c s) (v_flags c)) x.
Proof.
  intros PA C IN D UH UC UG (_ & HB) sd x. assert (CN : v_cmd c = "uniq") by (destruct IN as (-> & _); exact C). rewrite CN. apply HB.
  - assert (KN : known ("-" :: uniq_names) (map (wflag_of c s) (v_flags c))).
    { eapply parse_known; eauto; [rewrite C; left; vm_compute; reflexivity|vm_compute; reflexivity]. }
    unfold known in *. rewrite Forall_forall in KN |- *. intros f J. destruct (KN f J) as [E|E]; [|exact E]. exfalso. apply UH.
    apply uses_in. rewrite <- (names_eq inv c s IN), E. now apply in_map.
  - apply (given_unused inv); [exact IN|]. intros (n & [<-|J] & U); [contradiction|]. apply D. now exists n.
  - intros G. apply (given_unused inv); [exact IN|]. intros (n & [<-|[]] & U). apply UG. split; [|exact U].
    apply (given_uses inv) in G; [|exact IN]. destruct G as (n & [<-|[]] & G). exact G.
Qed.
Lemma uniq_exact text inv p c v :
  parse shipped_dir text = Ok inv -> cmd_name inv = "uniq" -> offered shipped_dir inv p ->
  invocation_of inv c -> reads_one c v -> tight c -> ~ uses inv "-" -> ~ uses inv "-c" -> ~ (uses inv "-u" /\ uses inv "--group") ->
  (forall B o, is_uniq o B -> adjacent_ok B p c v) <->
  ~ uses_any inv ["-u"; "-z"; "--help"; "--version"] /\
  (forall s m, group_method (map (wflag_of c s) (v_flags c)) = Some m -> ~ In m ["prepend"; "append"; "both"]).
Proof.
  intros PA C OF IN R T UH UC UG. pose proof (uniq_stateless inv p C OF UC) as I. pose proof (uniq_offered_plain inv p C OF) as UD. split.
  - intros H.
    assert (K : forall s, ~ uniq_bad (map (wflag_of c s) (v_flags c))).
    { intros s BAD. set (fl := map (wflag_of c s) (v_flags c)) in *.
      assert (UO := uniq_system_ok plain_uniq (fun _ => eqb_equivalence)).
      assert (X : forall a b, ends_line a -> uniq_output plain_uniq fl (a +++ b) =
        adjacent (uniq_output plain_uniq fl) (uniq_output plain_uniq fl a) (uniq_output plain_uniq fl b)).
      { intros a b EA. apply (adjacent_complete (uniq_system plain_uniq) p c v s a b (uniq_output plain_uniq fl) R T I EA); [|eauto].
        intros sd x. eapply uniq_run; eauto. }
      clear H. destruct (given fl ["--help"; "--version"]) eqn:G1.
      { specialize (X "" "" (or_introl eq_refl)). unfold uniq_output in X. rewrite G1 in X. discriminate X. }
      assert (E1 : ends_line (String newline "")) by (right; now exists "").
      destruct (given fl ["-z"]) eqn:G2.
      { specialize (X (String newline "") (String newline "") E1). unfold uniq_output in X. rewrite G1, G2 in X.
        destruct (given fl ["-u"]); [vm_compute in X; discriminate X|].
        destruct (group_method fl) as [m|]; [|vm_compute in X; discriminate X]. unfold grouped in X.
        destruct (String.eqb m "prepend"); [vm_compute in X; discriminate X|]. destruct (String.eqb m "append"); [vm_compute in X; discriminate X|].
        destruct (String.eqb m "both"); vm_compute in X; discriminate X. }
      destruct (given fl ["-u"]) eqn:G3.
      { specialize (X (String newline (String newline "")) (String newline "")). unfold uniq_output in X. rewrite G1, G2, G3 in X.
        vm_compute in X. discriminate X. right. exists (String newline ""). reflexivity. }
      destruct BAD as [BAD|(m & GM & J)].
      { change ["-u"; "-z"; "--help"; "--version"] with (["-u"] ++ ["-z"] ++ ["--help"; "--version"]) in BAD. rewrite !given_split in BAD.
        rewrite G1, G2, G3 in BAD. discriminate. }
      specialize (X "a
" "a
"). unfold uniq_output in X. rewrite G1, G2, G3, GM in X.
      destruct J as [<-|[<-|[<-|[]]]]; vm_compute in X; discriminate X; right; exists "a"; reflexivity. }
    split.
    + intros U. apply (K (fun _ => "")). left. apply (given_uses inv); auto.
    + intros s m G J. apply (K s). right. eauto.
  - intros (U & G) B o UB s t seed FR DI.
    assert (N : ~ uniq_bad (map (wflag_of c s) (v_flags c))).
    { intros [H|(m & GM & J)]; [|now apply (G s m)]. apply U. apply (given_uses inv) in H; auto. }
    assert (M : p_mapper p = seq_mapper /\ p_info_mapper_aggregator p = 0 /\ agg_kind_of (p_aggregator p) = ADJ_LINES_SEQ /\ cut_at_lines (s v) (map s (parts t))).
    { destruct I as [<-|[<-|[]]]; cbn in DI; auto. }
    destruct M as (M1 & M2 & M3 & CU). rewrite M3. cbn [adj_fun].
    pose proof (uniq_run text inv c s o B PA C IN UD UH UC UG UB) as HB.
    rewrite (run_original B seed c v s R), HB, (proj1 CU).
    apply (adj_plan B p c v s _ (uniq_output o (map (wflag_of c s) (v_flags c)))); auto.
    + rewrite uniq_plain by exact N. destruct (group_method _); reflexivity.
    + intros sd a b EA.
      assert (X : forall y z, adjacent (adj_seq_fun B c v s sd) y z = adjacent (uniq_output o (map (wflag_of c s) (v_flags c))) y z).
      { intros y z. unfold adjacent. destruct (rev (lines y)), (lines z); auto. now rewrite seq_fun_run, HB by exact R. }
      rewrite X. rewrite !uniq_plain by exact N.
      assert (Y : forall y z, adjacent (uniq_output o (map (wflag_of c s) (v_flags c))) y z =
        adjacent (fun x => unlines (uniq_out (uniq_same o (map (wflag_of c s) (v_flags c))) (match group_method (map (wflag_of c s) (v_flags c)) with Some _ => true | None => false end) (lines x))) y z).
      { intros y z. unfold adjacent. destruct (rev (lines y)), (lines z); auto. now rewrite uniq_plain by exact N. }
      rewrite Y. apply uniq_adjacent; [apply UB|exact EA].
    + exact (proj2 CU).
Qed.

(** ** tr -d *)
Lemma line_one w : has_char newline w = false -> w <> "" -> lines w = [w].
Proof.
  unfold lines. induction w as [|a w IH]; [congruence|]. cbn [has_char records]. intros H _. apply orb_false_iff in H as (H1 & H2).
  rewrite Ascii.eqb_sym in H1. rewrite H1. destruct w as [|b w]; [reflexivity|]. now rewrite IH by (auto; discriminate).
Qed.
Lemma line_end w : has_char newline w = false -> lines (w +++ String newline "") = [w].
Proof. intros H. unfold lines. now rewrite records_terminated_one. Qed.
Lemma clean_joined l : Forall (fun x => has_char newline x = false) l -> has_char newline (joined l) = false.
Proof.
  induction 1 as [|x l H _ IH]; [reflexivity|]. change (joined (x :: l)) with (x +++ joined l). now rewrite has_char_app, H, IH.
Qed.
Lemma filter_joined l : joined (filter not_empty l) = joined l.
Proof. induction l as [|x l IH]; [reflexivity|]. change (joined (x :: l)) with (x +++ joined l). rewrite <- IH. destruct x; reflexivity. Qed.
Lemma merged_cases l : Forall (fun x => has_char newline x = false) l ->
  (filter not_empty l = [] /\ joined l = "" /\ merged_line l = "") \/
  (joined l <> "" /\ lines (merged_line l) = [joined l] /\ exists x, In x (filter not_empty l)).
Proof.
  intros C. pose proof (clean_joined l C) as CJ. unfold merged_line. pose proof (filter_joined l) as FJ.
  assert (NE : forall x, In x (filter not_empty l) -> x <> "") by (intros x I; apply filter_In in I as (_ & I); intros ->; discriminate).
  destruct (filter not_empty l) as [|x [|y fs]] eqn:E.
  - left. cbn in FJ. rewrite <- FJ. auto.
  - right. assert (J : joined l <> "") by (rewrite <- FJ; cbn; rewrite append_nil; apply NE; now left).
    split; [exact J|]. split; [now apply line_one|]. exists x. now left.
  - right. assert (J : joined l <> "") by (rewrite <- FJ; cbn; specialize (NE x (or_introl eq_refl)); destruct x; [congruence|discriminate]).
    split; [exact J|]. split; [now apply line_end|]. exists x. now left.
Qed.
Lemma merged_app l1 l2 : Forall (fun x => has_char newline x = false) l1 -> Forall (fun x => has_char newline x = false) l2 ->
  adjacent merge_fun (merged_line l1) (merged_line l2) = merged_line (l1 ++ l2).
Proof.
  intros C1 C2. destruct (merged_cases l1 C1) as [(F1 & J1 & M1)|(J1 & L1 & X1)].
  { rewrite M1. cbn. unfold merged_line. now rewrite filter_app, F1, joined_app, J1. }
  destruct (merged_cases l2 C2) as [(F2 & J2 & M2)|(J2 & L2 & X2)].
  { rewrite M2, adjacent_empty. unfold merged_line. now rewrite filter_app, F2, app_nil_r, joined_app, J2, append_nil. }
  unfold adjacent. rewrite L1, L2. cbn [rev app].
  assert (E : merged_line (l1 ++ l2) = (joined l1 +++ joined l2) +++ String newline "").
  { unfold merged_line. rewrite filter_app, joined_app. destruct X1 as (x & X1), X2 as (y & X2).
    destruct (filter not_empty l1) as [|z1 f1]; [destruct X1|]. destruct (filter not_empty l2) as [|z2 f2]; [destruct X2|].
    cbn [app]. destruct (f1 ++ z2 :: f2) eqn:Z; [destruct f1; discriminate|]. reflexivity. }
  assert (EM : merge_fun (unlines [joined l1; joined l2]) = (joined l1 +++ joined l2) +++ String newline "").
  { unfold merge_fun, unlines, lines. rewrite records_terminated.
    2: { constructor; [now apply clean_joined|]. constructor; [now apply clean_joined|constructor]. }
    change (joined [joined l1; joined l2]) with (joined l1 +++ joined l2 +++ ""). rewrite append_nil.
    destruct (joined l1) as [|a j1]; [congruence|]. reflexivity. }
  rewrite E, EM. change (unlines []) with "". now rewrite append_nil.
Qed.
Lemma merged_all ls : Forall (Forall (fun x => has_char newline x = false)) ls ->
  combine_adjacent merge_fun (map merged_line ls) = merged_line (List.concat ls).
Proof.
  destruct ls as [|l ls]; [reflexivity|]. intros C. inversion C as [|? ? C1 C2]; subst. clear C. cbn [map combine_adjacent List.concat].
  revert l C1. induction C2 as [|l' ls C' _ IH]; intros l C1; cbn [map fold_left List.concat]; [now rewrite app_nil_r|].
  rewrite merged_app by assumption. rewrite IH; [|now apply Forall_app]. now rewrite app_assoc.
Qed.
Lemma merge_plan B p c i s F : reads_one c i -> p_mapper p = seq_mapper -> p_info_mapper_aggregator p = 0 ->
  (forall x, has_char newline (F x) = false) ->
  (forall seed x, B seed (v_cmd c) (map (wflag_of c s) (v_flags c)) (map (word_of c s) (v_ops c)) [x] = F x) ->
  forall t, fresh_plan c t ->
  adj_evaluates B p c s (fun _ => merge_fun) t (merged_line (map (fun v => F (s v)) (parts t))).
Proof.
  intros R M N C HB. induction t as [x y seed|o seed ts IH] using plan_rect'; intros FR.
  - destruct FR as (ND & FR). cbn in *. inversion ND as [|? ? Ni _]; subst.
    destruct (mapper_run p c i x y R M N) as (m & G & W & E); [intros ->; apply Ni; now left|apply FR; now left|apply FR; right; now left|].
    assert (X : merged_line [F (s x)] = F (s x)) by (unfold merged_line; cbn [filter]; destruct (not_empty (F (s x))); cbn; now rewrite append_nil).
    rewrite X, <- (HB seed), <- E. now constructor.
  - pose proof (fresh_children _ _ _ _ FR) as FC. cbn [parts] in *.
    assert (E : map (fun v => F (s v)) (flat_map parts ts) = List.concat (map (fun t => map (fun v => F (s v)) (parts t)) ts)).
    { clear. induction ts; cbn; [reflexivity|]. now rewrite map_app, IHts. }
    rewrite E. rewrite <- merged_all. 2: { apply Forall_forall. intros l J. apply in_map_iff in J as (t & <- & _).
      apply Forall_forall. intros x J. apply in_map_iff in J as (v & <- & _). apply C. }
    rewrite map_map. constructor. apply adj_all. rewrite Forall_forall in *. auto.
Qed.
Lemma tr_deleting o fl ops x : given fl ["-s"] = false -> given fl ["--help"; "--version"] = false -> given fl ["-d"] = true ->
  tr_output o fl ops x = keep_chars (fun a => negb (tr_deletes o fl ops a)) x.
Proof.
  intros S H D. unfold tr_output. rewrite H.
  assert (I : forall y, map_chars (tr_image o fl ops) y = y).
  { assert (Id : forall a, tr_image o fl ops a = a) by (intros a; unfold tr_image; rewrite D; destruct ops as [|[] [|[] []]]; reflexivity).
    induction y as [|a y IH]; [reflexivity|]. cbn. now rewrite Id, IH. }
  rewrite I. unfold squeeze. apply squeeze_none. induction (keep_chars _ x); cbn; auto. split; [|auto]. unfold tr_squeezes. now rewrite S.
Qed.
Lemma kept_clean p x : p newline = false -> has_char newline (keep_chars p x) = false.
Proof.
  intros H. induction x as [|a x IH]; [reflexivity|]. cbn -[newline]. destruct (p a) eqn:E; [|exact IH]. cbn -[newline].
  destruct (Ascii.eqb_spec newline a) as [<-|]; [congruence|exact IH].
Qed.
Lemma tr_merge text inv p c v B o s :
  parse shipped_dir text = Ok inv -> cmd_name inv = "tr" -> In p (stateless adj_merge) -> invocation_of inv c -> reads_one c v ->
  uses inv "-d" -> ~ uses_any inv ["-s"; "--help"; "--version"] -> is_tr o B ->
  tr_deletes o (map (wflag_of c s) (v_flags c)) (map (word_of c s) (v_ops c)) newline = true ->
  forall t r seed, fresh_plan c t -> distributes (p_splitter p) (s v) (map s (parts t)) ->
    adj_evaluates B p c s (adj_fun (agg_kind_of (p_aggregator p)) B c v s) t r ->
    exists results, Forall2 (fun x y => forall sd, B sd (v_cmd c) (map (wflag_of c s) (v_flags c)) (map (word_of c s) (v_ops c)) [s x] = y) (parts t) results /\
      run B seed c s = joined results /\ r = merged_line results.
Proof.
  intros PA C I IN R UD US TB DN t r seed FR DI EV.
  assert (CN : v_cmd c = "tr") by (destruct IN as (-> & _); exact C).
  assert (KN : known tr_names (map (wflag_of c s) (v_flags c))).
  { eapply parse_known; eauto; [rewrite C; left; vm_compute; reflexivity|vm_compute; reflexivity]. }
  set (fl := map (wflag_of c s) (v_flags c)) in *. set (ops := map (word_of c s) (v_ops c)) in *.
  assert (G1 : given fl ["-s"] = false) by (apply (given_unused inv); [exact IN|]; intros (n & [<-|[]] & U); apply US; exists "-s"; cbn; auto).
  assert (G2 : given fl ["--help"; "--version"] = false) by (apply (given_unused inv); [exact IN|]; intros (n & J & U); apply US; exists n; cbn in *; tauto).
  assert (G3 : given fl ["-d"] = true) by (apply (given_uses inv); [exact IN|]; exists "-d"; cbn; auto).
  set (F := keep_chars (fun a => negb (tr_deletes o fl ops a))).
  assert (HB : forall sd x, B sd (v_cmd c) fl ops [x] = F x) by (intros sd x; rewrite CN, TB by exact KN; now apply tr_deleting).
  assert (M : p_mapper p = seq_mapper /\ p_info_mapper_aggregator p = 0 /\ agg_kind_of (p_aggregator p) = ADJ_LINES_MERGE /\ cut_at_lines (s v) (map s (parts t))).
  { destruct I as [<-|[<-|[]]]; cbn in DI; auto. }
  destruct M as (M1 & M2 & M3 & CU). rewrite M3 in EV. cbn [adj_fun] in EV.
  exists (map (fun x => F (s x)) (parts t)). split; [|split].
  - generalize (parts t). induction l; cbn [map]; constructor; auto.
  - rewrite (run_original B seed c v s R). fold fl ops. rewrite HB, (proj1 CU). rewrite <- (map_map s F). generalize (map s (parts t)).
    induction l as [|x l IH]; [reflexivity|].
    change (F (x +++ joined l) = F x +++ joined (map F l)). rewrite <- IH. apply keep_app.
  - eapply adj_fun_eq; [exact EV|]. apply (merge_plan B p c v s F); auto. intros x. apply kept_clean. now rewrite DN.
Qed.
