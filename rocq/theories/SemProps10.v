(** * Proofs about functions for adjacent lines (C78) *)
From Coq Require Import Lia DecimalString DecimalNat.
Require Import Verif.PyBase Verif.JsonData Verif.Parser Verif.Access Verif.IOInfo Verif.IOVars
  Verif.Transformers Verif.ParaTypes Verif.ParaGen Verif.MapperAgg Verif.SpecLists Verif.SpecIO Verif.SpecVars Verif.SpecPara
  Verif.ParserFacts Verif.ParaProps Verif.ShippedData Verif.P_Para Verif.SpecSem Verif.SemFacts Verif.SemRun Verif.SemProps Verif.SpecSem2 Verif.SemProps2
  Verif.SpecSem3 Verif.SemProps3 Verif.SpecSem10.

(** ** Lines with their newlines *)
Lemma joined_raw s : joined (raw_lines s) = s.
Proof.
  induction s as [|a s IH]; [reflexivity|]. cbn [raw_lines]. destruct (Ascii.eqb a newline).
  - change (String a (joined (raw_lines s)) = String a s). now rewrite IH.
  - destruct (raw_lines s) as [|l ls]; rewrite <- IH; reflexivity.
Qed.
Lemma raw_nil s : raw_lines s = [] -> s = "".
Proof. intros E. rewrite <- (joined_raw s), E. reflexivity. Qed.
Lemma raw_end a b : raw_lines (a +++ String newline b) = raw_lines (a +++ String newline "") ++ raw_lines b.
Proof.
  induction a as [|x a IH].
  - reflexivity.
  - cbn [String.append raw_lines]. destruct (Ascii.eqb x newline); cbn [app]; [now rewrite IH|]. rewrite IH.
    destruct (raw_lines (a +++ String newline "")) as [|l ls] eqn:E; [|reflexivity]. exfalso. apply raw_nil in E. destruct a; discriminate.
Qed.
Lemma raw_app a b : ends_line a -> raw_lines (a +++ b) = raw_lines a ++ raw_lines b.
Proof. intros [->|(t & ->)]; [reflexivity|]. rewrite append_assoc. apply raw_end. Qed.
Lemma raw_one r : has_char newline r = false -> raw_lines (r +++ String newline "") = [r +++ String newline ""].
Proof.
  induction r as [|a r IH]; [reflexivity|]. cbn [has_char]. intros H. apply orb_false_iff in H as (A & H).
  cbn [String.append raw_lines]. rewrite Ascii.eqb_sym in A. rewrite (IH H).
  destruct (Ascii.eqb a newline) eqn:E; [|reflexivity]. exfalso. rewrite Ascii.eqb_sym in E. congruence.
Qed.
Lemma raw_unlines l : Forall (fun r => has_char newline r = false) l -> raw_lines (unlines l) = map (fun r => r +++ String newline "") l.
Proof.
  induction 1 as [|r l H _ IH]; [reflexivity|]. cbn [map]. rewrite <- IH. change (raw_lines (unlines (r :: l)) = [r +++ String newline ""] ++ raw_lines (unlines l)). rewrite <- (raw_one r H), <- raw_app by (right; now exists r).
  reflexivity.
Qed.
Lemma joined_unlines l : joined (map (fun r => r +++ String newline "") l) = unlines l.
Proof. reflexivity. Qed.
Lemma adjacent_nil f x : adjacent_lines f x "" = x.
Proof.
  unfold adjacent_lines. destruct (rev (raw_lines x)) eqn:E; cbn [raw_lines]; [|reflexivity].
  symmetry. apply raw_nil. rewrite <- (rev_involutive (raw_lines x)), E. reflexivity.
Qed.
(** On complete lines this is the combination of SpecSem3.v. *)
Lemma adjacent_same g x y : ends_line x -> ends_line y -> adjacent_lines (one_stream g) x y = adjacent g x y.
Proof.
  intros X Y.
  assert (U : forall z, ends_line z -> exists l, Forall (fun r => has_char newline r = false) l /\ z = unlines l).
  { intros z Z. exists (lines z). split; [apply records_clean|]. destruct Z as [->|(t & ->)]; [reflexivity|].
    clear. induction t as [|a t IH]; [reflexivity|]. cbn [String.append]. unfold lines. cbn [records]. destruct (Ascii.eqb_spec a newline) as [->|N].
    - unfold unlines. cbn. f_equal. exact IH.
    - unfold lines in IH. destruct (records newline (t +++ String newline "")) as [|r rs]; [destruct t; discriminate|].
      rewrite IH. reflexivity. }
  destruct (U x X) as (lx & CX & ->). destruct (U y Y) as (ly & CY & ->).
  unfold adjacent_lines, adjacent. rewrite !raw_unlines by assumption. unfold lines, unlines. rewrite !records_terminated by assumption.
  rewrite <- map_rev. destruct (rev lx) as [|a before]; destruct ly as [|b after]; cbn [map]; auto.
  rewrite <- map_rev. unfold one_stream, terminated. cbn [map joined fold_right]. now rewrite append_nil.
Qed.

(** ** Plans *)
Lemma lines_pieces f F : F "" = "" -> (forall a b, ends_line a -> adjacent_lines f (F a) (F b) = F (a +++ b)) ->
  forall ls, Forall ends_line (removelast (List.concat ls)) ->
  combine_lines f (map (fun l => F (joined l)) ls) = F (joined (List.concat ls)).
Proof.
  intros F0 H ls. destruct ls as [|l ls]; [intros _; cbn; now rewrite F0|]. cbn [map combine_lines List.concat].
  revert l. induction ls as [|l' ls IH]; intros l P; cbn [map fold_left List.concat]; [now rewrite app_nil_r|].
  cbn [List.concat] in P. rewrite app_assoc in P |- *. rewrite <- IH by exact P. f_equal.
  rewrite joined_app. apply pieces_app in P as (P & _). apply pieces_app in P as (_ & _ & [P| ->]).
  - apply H. now apply ends_joined.
  - cbn. now rewrite F0, adjacent_nil, append_nil.
Qed.
Lemma lines_all B p c s f ts g : Forall (fun t => lines_evaluates B p c s f t (g t)) ts -> lines_evaluate_all B p c s f ts (map g ts).
Proof. induction 1; cbn; constructor; auto. Qed.
Lemma lines_plan B p c i s f F : reads_one c i -> p_mapper p = seq_mapper -> p_info_mapper_aggregator p = 0 ->
  F "" = "" -> (forall a b, ends_line a -> adjacent_lines f (F a) (F b) = F (a +++ b)) ->
  (forall seed x, B seed (v_cmd c) (map (wflag_of c s) (v_flags c)) (map (word_of c s) (v_ops c)) [x] = F x) ->
  forall t, fresh_plan c t -> Forall ends_line (removelast (map s (parts t))) ->
  lines_evaluates B p c s f t (F (joined (map s (parts t)))).
Proof.
  intros R M N F0 H HB. induction t as [x y seed|o seed ts IH] using plan_rect'; intros FR P.
  - destruct FR as (ND & FR). cbn in *. inversion ND as [|? ? Ni _]; subst.
    destruct (mapper_run p c i x y R M N) as (m & G & W & E); [intros ->; apply Ni; now left|apply FR; now left|apply FR; right; now left|].
    rewrite append_nil, <- (HB seed), <- E. now constructor.
  - pose proof (fresh_children _ _ _ _ FR) as FC. cbn [parts] in *.
    assert (E : map s (flat_map parts ts) = List.concat (map (fun t => map s (parts t)) ts)).
    { clear. induction ts; cbn; [reflexivity|]. now rewrite map_app, IHts. }
    rewrite E in *. rewrite <- (lines_pieces f F F0 H) by exact P. rewrite map_map. constructor.
    apply lines_all. clear E FR. rewrite Forall_forall in IH, FC |- *. intros t I. apply IH; auto.
    clear IH FC. induction ts as [|t' ts IHts]; [destruct I|]. cbn in P. apply pieces_app in P as (P1 & P2 & _).
    destruct I as [<-|I]; auto.
Qed.
Lemma lines_fun_eq B p c s f t : forall r r', lines_evaluates B p c s f t r -> lines_evaluates B p c s f t r' -> r = r'.
Proof.
  induction t as [x y sd|q sd ts IH] using plan_rect'; intros r r' E E'; inversion E; subst; inversion E'; subst.
  - congruence.
  - f_equal. clear E E'. rename outs into l, outs0 into l'. rename H3 into A, H4 into A'. revert l l' A A'.
    induction IH as [|t ts H _ IH]; intros l l' A A'; inversion A; subst; inversion A'; subst; [reflexivity|]. f_equal; eauto.
Qed.
Lemma lines_two B p c i k f F s a b : reads_one c i -> tight c -> In p (stateless k) -> ends_line a ->
  (forall sd x, B sd (v_cmd c) (map (wflag_of c s) (v_flags c)) (map (word_of c s) (v_ops c)) [x] = F x) ->
  exists s' t, fresh_plan c t /\ distributes (p_splitter p) (s' i) (map s' (parts t)) /\ s' i = a +++ b /\
    (map (wflag_of c s') (v_flags c) = map (wflag_of c s) (v_flags c) /\ map (word_of c s') (v_ops c) = map (word_of c s) (v_ops c)) /\
    lines_evaluates B p c s' (f s') t (adjacent_lines (f s') (F a) (F b)).
Proof.
  intros R T I EA HB. destruct (fresh_vars c i T) as (z & Z1 & Z2).
  set (s' := connect [i; z; z + 1]%Z [a +++ b; a; b] s).
  set (t := Node (z + 4)%Z 0 [Leaf z (z + 2)%Z 0; Leaf (z + 1)%Z (z + 3)%Z 0]).
  assert (Si : s' i = a +++ b) by (unfold s'; cbn; now rewrite Z.eqb_refl).
  assert (S1 : s' z = a).
  { unfold s'; cbn. destruct (Z.eqb_spec z i); [lia|]. now rewrite Z.eqb_refl. }
  assert (S2 : s' (z + 1)%Z = b).
  { unfold s'; cbn -[Z.add]. destruct (Z.eqb_spec (z + 1) i); [lia|]. destruct (Z.eqb_spec (z + 1) z); [lia|]. now rewrite Z.eqb_refl. }
  assert (W : map (wflag_of c s') (v_flags c) = map (wflag_of c s) (v_flags c) /\ map (word_of c s') (v_ops c) = map (word_of c s) (v_ops c)).
  { apply (words_only c i s' s R). intros v J N. apply connect_out. intros [E|[E|[E|[]]]]; [now apply N| |]; apply (Z2 v); auto; lia. }
  exists s', t. split; [|split; [|split; [exact Si|split; [exact W|]]]].
  - split; [cbn; repeat constructor; cbn; lia|]. intros v J. apply Z2. cbn in J. lia.
  - cbn [parts t flat_map map app]. rewrite Si, S1, S2.
    assert (X : cut_at_lines (a +++ b) [a; b]) by (split; [cbn; now rewrite append_nil|apply (Forall_cons a EA), Forall_nil]).
    destruct I as [<-|[<-|[]]]; exact X.
  - destruct W as (W1 & W2).
    assert (M : p_mapper p = seq_mapper /\ p_info_mapper_aggregator p = 0) by (destruct I as [<-|[<-|[]]]; auto).
    destruct M as (M1 & M2).
    assert (X : forall x y, x <> y -> (z <= x)%Z -> (z <= y)%Z -> exists m, get_actual_mapper p c x y [] = Ok (Some m) /\ writes m y /\
      run B 0 m s' = B 0 (v_cmd c) (map (wflag_of c s) (v_flags c)) (map (word_of c s) (v_ops c)) [s' x]).
    { intros x y N L1 L2. destruct (mapper_run p c i x y R M1 M2 N (Z2 x L1) (Z2 y L2)) as (m & G & W & Rm). exists m. split; [exact G|].
      split; [exact W|]. rewrite Rm, W1, W2. reflexivity. }
    destruct (X z (z + 2)%Z) as (m1 & G1 & V1 & R1); [lia..|]. destruct (X (z + 1)%Z (z + 3)%Z) as (m2 & G2 & V2 & R2); [lia..|].
    rewrite S1, HB in R1. rewrite S2, HB in R2. rewrite <- R1, <- R2.
    change (lines_evaluates B p c s' (f s') t (combine_lines (f s') [run B 0 m1 s'; run B 0 m2 s'])).
    repeat (constructor; auto).
Qed.
(** A function of the results of two pieces decides. *)
Lemma lines_differs B p c i k s f F a b : reads_one c i -> tight c -> In p (stateless k) -> ends_line a ->
  (forall sd x, B sd (v_cmd c) (map (wflag_of c s) (v_flags c)) (map (word_of c s) (v_ops c)) [x] = F x) ->
  (forall g, F (a +++ b) <> adjacent_lines g (F a) (F b)) -> lines_wrong B p c i f.
Proof.
  intros R T I EA HB NE. destruct (lines_two B p c i k f F s a b R T I EA HB) as (s' & t & FR & D & Si & (W1 & W2) & E).
  exists s', t. eexists. split; [exact FR|]. split; [exact D|]. split; [exact E|]. intros sd X. apply (NE (f s')).
  rewrite (run_original B sd c i s' R), W1, W2, Si, HB in X. now rewrite X.
Qed.
Lemma lines_not_wrong B p c i f : lines_ok B p c i f -> ~ lines_wrong B p c i f.
Proof.
  intros OK (s & t & r & FR & D & E & NE). apply (NE 0). exact (lines_fun_eq _ _ _ _ _ _ _ _ E (OK s t 0 FR D)).
Qed.
Lemma lines_complete B p c i k s f F a b : reads_one c i -> tight c -> In p (stateless k) -> ends_line a ->
  (forall sd x, B sd (v_cmd c) (map (wflag_of c s) (v_flags c)) (map (word_of c s) (v_ops c)) [x] = F x) ->
  (forall s', map (wflag_of c s') (v_flags c) = map (wflag_of c s) (v_flags c) -> map (word_of c s') (v_ops c) = map (word_of c s) (v_ops c) -> f s' = f s) ->
  lines_ok B p c i f -> F (a +++ b) = adjacent_lines (f s) (F a) (F b).
Proof.
  intros R T I EA HB FE OK. destruct (lines_two B p c i k f F s a b R T I EA HB) as (s' & t & FR & D & Si & (W1 & W2) & E).
  specialize (OK s' t 0 FR D). apply (lines_fun_eq _ _ _ _ _ _ _ _ OK) in E.
  rewrite (run_original B 0 c i s' R), W1, W2, Si, HB, (FE s' W1 W2) in E. exact E.
Qed.
Lemma lines_sound B p c i k f F : reads_one c i -> In p (stateless k) ->
  (forall s, F s "" = "") -> (forall s a b, ends_line a -> adjacent_lines (f s) (F s a) (F s b) = F s (a +++ b)) ->
  (forall s seed x, B seed (v_cmd c) (map (wflag_of c s) (v_flags c)) (map (word_of c s) (v_ops c)) [x] = F s x) -> lines_ok B p c i f.
Proof.
  intros R I F0 H HB s t seed FR D. rewrite (run_original B seed c i s R), HB.
  assert (M : p_mapper p = seq_mapper /\ p_info_mapper_aggregator p = 0) by (destruct I as [<-|[<-|[]]]; auto). destruct M as (M1 & M2).
  assert (X : cut_at_lines (s i) (map s (parts t))) by (destruct I as [<-|[<-|[]]]; exact D). destruct X as (-> & X).
  exact (lines_plan B p c i s (f s) (F s) R M1 M2 (F0 s) (H s) (HB s) t FR X).
Qed.

(** ** Squeezing *)
Fixpoint last_char (d : option ascii) (s : string) : option ascii := match s with "" => d | String a s' => last_char (Some a) s' end.
Lemma squeeze_app q a : forall last b,
  squeeze_from last q (a +++ b) = squeeze_from last q a +++ squeeze_from (last_char last (squeeze_from last q a)) q b.
Proof.
  induction a as [|x a IH]; intros last b; [reflexivity|]. cbn [String.append squeeze_from].
  destruct (q x && match last with Some y => Ascii.eqb x y | None => false end); [apply IH|]. cbn [String.append last_char]. now rewrite IH.
Qed.
Lemma squeeze_twice q s : forall last, squeeze_from last q (squeeze_from last q s) = squeeze_from last q s.
Proof.
  induction s as [|x s IH]; intros last; [reflexivity|]. cbn [squeeze_from].
  destruct (q x && match last with Some y => Ascii.eqb x y | None => false end) eqn:E; [apply IH|]. cbn [squeeze_from]. rewrite E. now rewrite IH.
Qed.
(** Squeezing what was squeezed: only the first character matters. *)
Definition squeezed q s : Prop := squeeze_from None q s = s.
Lemma squeezed_cut q a b : squeezed q (a +++ b) -> squeezed q a /\ squeeze_from (last_char None a) q b = b /\ squeezed q b.
Proof.
  unfold squeezed. intros H. rewrite squeeze_app in H.
  assert (L : forall l s, String.length (squeeze_from l q s) <= String.length s).
  { intros l s. revert l. induction s as [|x s IH]; intros l; [cbn; lia|]. cbn [squeeze_from].
    destruct (q x && _); [specialize (IH l); cbn; lia|]. specialize (IH (Some x)). cbn. lia. }
  assert (A : squeeze_from None q a = a).
  { pose proof (L None a) as L1. pose proof (L (last_char None (squeeze_from None q a)) b) as L2.
    assert (E : String.length (squeeze_from None q a) = String.length a).
    { apply (f_equal String.length) in H. rewrite !append_length in H. lia. }
    clear L1 L2 L. revert b H E. generalize (squeeze_from None q a) as z. intros z b. generalize (squeeze_from (last_char None z) q b) as w.
    revert a b. induction z as [|x z IH]; intros [|y a] b w H E; cbn in *; try discriminate; [reflexivity|].
    injection H as -> H. f_equal. eapply IH; eauto. }
  rewrite A in H. split; [exact A|].
  assert (B : squeeze_from (last_char None a) q b = b).
  { clear A. revert H. generalize (squeeze_from (last_char None a) q b). clear. induction a as [|x a IH]; intros w H; [exact H|]. injection H as H. auto. }
  split; [exact B|]. destruct b as [|x b]; [reflexivity|]. cbn [squeeze_from] in B |- *. rewrite andb_false_r.
  destruct (q x && _) eqn:E; [|exact B]. exfalso.
  pose proof (L (last_char None a) b) as X. rewrite B in X. cbn in X. lia.
Qed.
Lemma last_squeeze q s : forall l, last_char l (squeeze_from l q s) = last_char l s.
Proof.
  induction s as [|x s IH]; intros l; [reflexivity|]. cbn [squeeze_from last_char].
  destruct (q x) eqn:Q; cbn [andb]; [|cbn [last_char]; apply IH]. destruct l as [y|]; [|cbn [last_char]; apply IH].
  destruct (Ascii.eqb_spec x y) as [->|N]; [apply IH|cbn [last_char]; apply IH].
Qed.
Lemma last_some s : s <> "" -> forall l l', last_char l s = last_char l' s.
Proof. destruct s; [congruence|]. reflexivity. Qed.
Lemma last_app a : forall l b, last_char l (a +++ b) = last_char (last_char l a) b.
Proof. induction a as [|x a IH]; intros l b; [reflexivity|]. apply IH. Qed.
Lemma squeeze_inner q s l : squeeze_from l q (squeeze_from None q s) = squeeze_from l q s.
Proof.
  destruct s as [|x s]; [reflexivity|]. cbn [squeeze_from]. rewrite andb_false_r. cbn [squeeze_from]. destruct (q x) eqn:Q; cbn [andb].
  - destruct l as [y|]; [|now rewrite squeeze_twice]. destruct (Ascii.eqb_spec x y) as [->|N]; now rewrite squeeze_twice.
  - now rewrite squeeze_twice.
Qed.
Lemma squeeze_parts q a b : squeeze q (squeeze q a +++ squeeze q b) = squeeze q (a +++ b).
Proof. unfold squeeze. now rewrite !squeeze_app, squeeze_twice, squeeze_inner. Qed.
Lemma raw_some s : Forall (fun l => l <> "") (raw_lines s).
Proof.
  induction s as [|a s IH]; [constructor|]. cbn [raw_lines]. destruct (Ascii.eqb a newline); [constructor; [discriminate|exact IH]|].
  destruct (raw_lines s); constructor; try discriminate; [constructor|]. now inversion IH.
Qed.
Lemma raw_split x y : (x = "" \/ y = "") \/
  exists P a b A, rev (raw_lines x) = a :: rev P /\ raw_lines y = b :: A /\ x = joined P +++ a /\ y = b +++ joined A /\ a <> "" /\ b <> "".
Proof.
  destruct (rev (raw_lines x)) as [|a P] eqn:EX.
  { left; left. apply raw_nil. rewrite <- (rev_involutive (raw_lines x)), EX. reflexivity. }
  destruct (raw_lines y) as [|b A] eqn:EY; [left; right; now apply raw_nil|]. right.
  exists (rev P), a, b, A. rewrite rev_involutive. repeat split; auto.
  - rewrite <- (joined_raw x) at 1. rewrite <- (rev_involutive (raw_lines x)), EX. cbn [rev]. rewrite joined_app. cbn. now rewrite append_nil.
  - rewrite <- (joined_raw y) at 1. now rewrite EY.
  - assert (X := raw_some x). apply Forall_rev in X. rewrite EX in X. now inversion X.
  - assert (X := raw_some y). rewrite EY in X. now inversion X.
Qed.
Lemma squeeze_adjacent q x y : squeezed q x -> squeezed q y -> adjacent_lines (squeeze_again q) x y = squeeze q (x +++ y).
Proof.
  intros X Y. destruct (raw_split x y) as [[->| ->]|(P & a & b & A & EX & EY & Ex & Ey & NA & NB)].
  - cbn. unfold adjacent_lines. cbn. symmetry. destruct (raw_lines y); exact Y.
  - rewrite adjacent_nil, append_nil. now symmetry.
  - unfold adjacent_lines. rewrite EX, EY, rev_involutive. unfold squeeze_again, squeeze. subst x y.
    destruct (squeezed_cut q _ _ X) as (_ & X2 & X3). destruct (squeezed_cut q _ _ Y) as (Y1 & Y2 & _).
    rewrite (squeeze_app q (joined P +++ a)), X, append_assoc. f_equal. rewrite (squeeze_app q a), X3, append_assoc. f_equal.
    rewrite last_app, (last_some a NA (last_char None (joined P)) None), squeeze_app. f_equal. symmetry.
    rewrite last_squeeze, (last_some b NB _ None). exact Y2.
Qed.
Lemma map_chars_app f a b : map_chars f (a +++ b) = map_chars f a +++ map_chars f b.
Proof. induction a as [|x a IH]; [reflexivity|]. cbn. now rewrite IH. Qed.
Lemma keep_chars_app p a b : keep_chars p (a +++ b) = keep_chars p a +++ keep_chars p b.
Proof. induction a as [|x a IH]; [reflexivity|]. cbn. destruct (p x); cbn; now rewrite IH. Qed.
Lemma keep_all p s : (forall a, p a = true) -> keep_chars p s = s.
Proof. intros H. induction s as [|x s IH]; [reflexivity|]. cbn. now rewrite H, IH. Qed.
Lemma tr_again o fl ops a b : given fl ["--help"; "--version"] = false ->
  adjacent_lines (squeeze_again (tr_squeezes o fl ops)) (tr_output o fl ops a) (tr_output o fl ops b) = tr_output o fl ops (a +++ b).
Proof.
  intros G. unfold tr_output. rewrite G, keep_chars_app, map_chars_app. rewrite squeeze_adjacent; [apply squeeze_parts| |]; apply squeeze_twice.
Qed.
(** *** Dropping an empty line *)
Lemma raw_first b y A : raw_lines y = b :: A -> (b = String newline "" <-> exists y', y = String newline y').
Proof.
  destruct y as [|c y]; [discriminate|]. cbn [raw_lines]. destruct (Ascii.eqb_spec c newline) as [->|N].
  - intros E. injection E as <- _. split; [eauto|reflexivity].
  - intros E. assert (E' : exists z, b = String c z) by (destruct (raw_lines y); injection E as <- _; eauto). destruct E' as (z & ->).
    split; [intros X; congruence|]. intros (y' & X). congruence.
Qed.
Lemma drop_adjacent x y : x <> "" -> adjacent_lines drop_empty x y =
  match y with String c y' => if Ascii.eqb c newline then x +++ y' else x +++ y | "" => x end.
Proof.
  intros NX. destruct (raw_split x y) as [[->| ->]|(P & a & b & A & EX & EY & Ex & Ey & NA & NB)]; [congruence|apply adjacent_nil|].
  unfold adjacent_lines. rewrite EX, EY, rev_involutive. unfold drop_empty. pose proof (raw_first b y A EY) as RF.
  destruct y as [|c y']; [discriminate|]. destruct (String.eqb_spec b (String newline "")) as [Eb|Nb].
  - destruct (proj1 RF Eb) as (y'' & E). injection E as -> ->. rewrite Ascii.eqb_refl, Ex, append_assoc. do 2 f_equal.
    subst b. cbn in Ey. now injection Ey as ->.
  - destruct (Ascii.eqb_spec c newline) as [->|N]; [exfalso; apply Nb, RF; eauto|]. rewrite Ey, Ex. now rewrite !append_assoc.
Qed.
Lemma tr_plain o fl ops x : given fl ["--help"; "--version"] = false -> given fl ["-d"] = false ->
  tr_output o fl ops x = squeeze (tr_squeezes o fl ops) (map_chars (tr_image o fl ops) x).
Proof.
  intros G D. unfold tr_output. rewrite G, keep_all; [reflexivity|]. intros a. unfold tr_deletes. rewrite D. destruct ops as [|[] ?]; reflexivity.
Qed.
Lemma image_no f c s : (forall a, f a <> c) -> forall y, map_chars f s <> String c y.
Proof. intros H y. destruct s; [discriminate|]. cbn. intros E. injection E as E _. now apply (H a). Qed.
Lemma squeeze_first q c y s : squeeze q s = String c y -> exists s', s = String c s'.
Proof. destruct s as [|x s]; [discriminate|]. unfold squeeze. cbn [squeeze_from]. rewrite andb_false_r. intros E. injection E as -> _. eauto. Qed.
Lemma tr_drop o fl ops : given fl ["--help"; "--version"] = false -> given fl ["-d"] = false -> drops_right o fl ops ->
  forall a b, ends_line a -> adjacent_lines drop_empty (tr_output o fl ops a) (tr_output o fl ops b) = tr_output o fl ops (a +++ b).
Proof.
  intros G D DR a b EA. rewrite !tr_plain by assumption. set (q := tr_squeezes o fl ops). set (f := tr_image o fl ops). unfold drops_right in DR. fold q f in DR.
  rewrite map_chars_app. destruct EA as [->|(t & ->)].
  { cbn. unfold adjacent_lines. cbn. now destruct (raw_lines (squeeze q (map_chars f b))). }
  rewrite map_chars_app. cbn [map_chars]. set (x := map_chars f t +++ String (f newline) "").
  assert (NX : squeeze q x <> "").
  { unfold x. destruct t; cbn [map_chars String.append]; unfold squeeze; cbn [squeeze_from]; rewrite andb_false_r; discriminate. }
  assert (LX : last_char None (squeeze q x) = Some (f newline)).
  { unfold squeeze. rewrite last_squeeze. unfold x. rewrite last_app. reflexivity. }
  rewrite (drop_adjacent _ _ NX). unfold squeeze at 6. rewrite squeeze_app. fold (squeeze q x). rewrite LX.
  rewrite <- (squeeze_inner q (map_chars f b)). fold (squeeze q (map_chars f b)).
  pose proof (squeeze_twice q (map_chars f b) None) as SY. fold (squeeze q (map_chars f b)) in SY.
  destruct (squeeze q (map_chars f b)) as [|c y] eqn:EY; [cbn; now rewrite append_nil|].
  assert (TY : squeeze_from (Some c) q y = y).
  { cbn [squeeze_from] in SY. rewrite andb_false_r in SY. now injection SY. }
  cbn [squeeze_from]. rewrite TY. destruct (Ascii.eqb_spec c newline) as [->|N].
  - destruct DR as [(F & Q)|(F & Q)].
    + rewrite F, Q, Ascii.eqb_refl. cbn [andb]. now rewrite TY.
    + exfalso. apply squeeze_first in EY as (s' & E). exact (image_no f newline b F s' E).
  - assert (E : q c && Ascii.eqb c (f newline) = false).
    { destruct (Ascii.eqb_spec c (f newline)) as [->|M]; [|apply andb_false_r]. destruct DR as [(F & Q)|(F & Q)]; [congruence|]. now rewrite Q. }
    now rewrite E.
Qed.
Lemma tr_drop_only o fl ops : given fl ["--help"; "--version"] = false -> given fl ["-d"] = false ->
  (forall a b, ends_line a -> tr_output o fl ops (a +++ b) = adjacent_lines drop_empty (tr_output o fl ops a) (tr_output o fl ops b)) ->
  drops_right o fl ops.
Proof.
  intros G D H. set (q := tr_squeezes o fl ops). set (f := tr_image o fl ops).
  assert (H' : forall c, squeeze q (String (f newline) (String (f c) "")) = adjacent_lines drop_empty (String (f newline) "") (String (f c) "")).
  { intros c. specialize (H (String newline "") (String c "") (or_intror (ex_intro _ "" eq_refl))). rewrite !tr_plain in H by assumption. fold q f in H.
    cbn [String.append map_chars] in H. rewrite H. unfold squeeze. cbn [squeeze_from]. now rewrite !andb_false_r. }
  assert (H2 : forall c, squeeze q (String (f newline) (String (f c) "")) = if Ascii.eqb (f c) newline then String (f newline) "" else String (f newline) (String (f c) "")).
  { intros c. rewrite H', drop_adjacent by discriminate. now destruct (Ascii.eqb (f c) newline). }
  clear H H'. unfold squeeze in H2. cbn [squeeze_from] in H2. rewrite andb_false_r in H2.
  pose proof (H2 newline) as H0. rewrite Ascii.eqb_refl, andb_true_r in H0. destruct (Ascii.eqb_spec (f newline) newline) as [E|N].
  - left. fold q f. split; [exact E|]. rewrite <- E. destruct (q (f newline)); [reflexivity|discriminate].
  - right. fold q f. assert (Q : q (f newline) = false) by (destruct (q (f newline)); [discriminate|reflexivity]). split; [|exact Q].
    intros a E. specialize (H2 a). rewrite E, Ascii.eqb_refl in H2.
    destruct (Ascii.eqb_spec newline (f newline)) as [X|X]; [now apply N|]. rewrite andb_false_r in H2. discriminate.
Qed.

(** ** Numbers before lines *)
Lemma digits_only d : forall c, has_char c (NilEmpty.string_of_uint d) = true -> In c ["0"; "1"; "2"; "3"; "4"; "5"; "6"; "7"; "8"; "9"]%char.
Proof.
  induction d; intros c H; cbn [NilEmpty.string_of_uint has_char] in H; [discriminate|..];
    apply orb_true_iff in H as [H|H]; auto; apply Ascii.eqb_eq in H; subst; cbn; tauto.
Qed.
Lemma number_clean c n : ~ In c ["0"; "1"; "2"; "3"; "4"; "5"; "6"; "7"; "8"; "9"]%char -> has_char c (number_text n) = false.
Proof. intros H. destruct (has_char c (number_text n)) eqn:E; [|reflexivity]. exfalso. apply H. exact (digits_only _ c E). Qed.
Lemma number_some n : number_text n <> "".
Proof.
  unfold number_text. intros E. assert (X : NilEmpty.uint_of_string (NilEmpty.string_of_uint (Nat.to_uint n)) = Some Decimal.Nil) by now rewrite E.
  rewrite NilEmpty.usu in X. injection X as X. unfold Nat.to_uint in X.
  pose proof (Unsigned.of_to n) as Y. unfold Nat.to_uint in Y. rewrite X in Y. cbn in Y. subst n. discriminate X.
Qed.
Lemma blanks_dropped k s : drop_blanks (blanks k +++ s) = drop_blanks s.
Proof. induction k as [|k IH]; [reflexivity|]. cbn. exact IH. Qed.
Lemma until_number w s : has_char " " w = false -> until_blank (w +++ String " " s) = (w, s).
Proof.
  induction w as [|a w IH]; [reflexivity|]. cbn [has_char]. intros H. apply orb_false_iff in H as (A & H). cbn [String.append until_blank].
  rewrite (IH H). destruct (Ascii.eqb_spec a " ") as [->|N]; [|reflexivity]. now rewrite Ascii.eqb_refl in A.
Qed.
Lemma split_text n x : split_count (count_text n +++ x) = Some (n, x).
Proof.
  unfold split_count, count_text. rewrite !append_assoc, blanks_dropped. cbn [String.append].
  assert (C : has_char " " (number_text n) = false) by (apply number_clean; cbn; intuition discriminate).
  assert (D : drop_blanks (number_text n +++ String " " x) = number_text n +++ String " " x).
  { pose proof (number_some n) as N. destruct (number_text n) as [|a w]; [congruence|]. cbn [String.append drop_blanks].
    cbn [has_char] in C. apply orb_false_iff in C as (C & _). rewrite Ascii.eqb_sym in C. now destruct (Ascii.eqb a " "); [discriminate|]. }
  rewrite D, (until_number _ _ C). unfold number_text at 1. rewrite NilEmpty.usu. now rewrite Unsigned.of_to.
Qed.
Lemma has_char_app c x y : has_char c (x +++ y) = has_char c x || has_char c y.
Proof. induction x as [|a x IH]; [reflexivity|]. cbn. now rewrite IH, orb_assoc. Qed.
Lemma count_clean n : has_char newline (count_text n) = false.
Proof.
  unfold count_text. rewrite !has_char_app, number_clean by (cbn; intuition discriminate).
  assert (X : forall k, has_char newline (blanks k) = false) by (induction k; [reflexivity|exact IHk]). now rewrite X.
Qed.

(** ** Blocks of a text in two pieces *)
Lemma blocks_some eq l : Forall (fun g => g <> []) (blocks eq l).
Proof.
  induction l as [|x l IH]; [constructor|]. cbn. destruct (blocks eq l) as [|[|y g] gs]; [repeat constructor; discriminate|now inversion IH|].
  inversion IH; subst. destruct (eq x y); repeat (constructor; try discriminate); auto.
Qed.
Lemma blocks_nil eq l : blocks eq l = [] -> l = [].
Proof. destruct l as [|x l]; [reflexivity|]. cbn. destruct (blocks eq l) as [|[|y g] gs]; [discriminate..|]. destruct (eq x y); discriminate. Qed.
Lemma blocks_concat eq l : List.concat (blocks eq l) = l.
Proof.
  induction l as [|x l IH]; [reflexivity|]. cbn [blocks]. destruct (blocks eq l) as [|[|y g] gs] eqn:E.
  - cbn in IH |- *. now rewrite <- IH.
  - pose proof (blocks_some eq l) as X. rewrite E in X. now inversion X.
  - destruct (eq x y); cbn in *; now rewrite IH.
Qed.
Lemma blocks_cut eq l2 : equivalence eq -> forall g2 after, blocks eq l2 = g2 :: after ->
  forall l1 before g1, blocks eq l1 = before ++ [g1] ->
  blocks eq (l1 ++ l2) = before ++ (if eq (hd "" g1) (hd "" g2) then [g1 ++ g2] else [g1; g2]) ++ after.
Proof.
  intros EQ g2 after E2. pose proof (blocks_some eq l2) as S2. rewrite E2 in S2. inversion S2 as [|? ? N2 _]; subst. clear S2.
  destruct g2 as [|y2 g2]; [congruence|]. clear N2. induction l1 as [|x l1 IH]; intros before g1 E1; [destruct before; discriminate|].
  destruct l1 as [|x' l1].
  - cbn in E1. assert (X : before = [] /\ g1 = [x]) by (destruct before as [|? [|]]; now inversion E1). destruct X as (-> & ->).
    cbn [app blocks]. rewrite E2. cbn [hd]. destruct (eq x y2); reflexivity.
  - destruct (blocks_head eq x' l1) as (h & hs & EH). cbn [blocks] in E1. cbn [blocks] in EH. rewrite EH in E1.
    destruct hs as [|h' hs _] using rev_ind.
    + specialize (IH [] (x' :: h)). cbn [app] in IH. specialize (IH EH). change ((x :: x' :: l1) ++ l2) with (x :: (x' :: l1) ++ l2).
      cbn [blocks]. cbn [app blocks] in IH |- *. rewrite IH. cbn [hd] in *. destruct (eq x x') eqn:EX.
      * assert (X : before = [] /\ g1 = x :: x' :: h) by (destruct before as [|? [|]]; now inversion E1). destruct X as (-> & ->).
        cbn [hd app]. rewrite (eq_same eq EQ x x' y2 EX). destruct (eq x' y2); cbn [app]; now rewrite EX.
      * assert (X : before = [[x]] /\ g1 = x' :: h) by (destruct before as [|? [|? [|]]]; now inversion E1). destruct X as (-> & ->).
        cbn [hd app]. destruct (eq x' y2); cbn [app]; now rewrite EX.
    + specialize (IH ((x' :: h) :: hs) h' EH). change ((x :: x' :: l1) ++ l2) with (x :: (x' :: l1) ++ l2).
      cbn [blocks]. cbn [app blocks] in IH |- *. rewrite IH. destruct (eq x x').
      * change ((x :: x' :: h) :: hs ++ [h']) with (((x :: x' :: h) :: hs) ++ [h']) in E1. apply app_inj_tail in E1 as (<- & <-). reflexivity.
      * change ([x] :: (x' :: h) :: hs ++ [h']) with (([x] :: (x' :: h) :: hs) ++ [h']) in E1. apply app_inj_tail in E1 as (<- & <-). reflexivity.
Qed.

(** ** Counting *)
Definition counted (eq : string -> string -> bool) (l : list string) : list string :=
  map (fun g => count_text (length g) +++ hd "" g) (blocks eq l).
Lemma in_blocks eq l g x : In g (blocks eq l) -> In x g -> In x l.
Proof. intros G X. rewrite <- (blocks_concat eq l). apply in_concat. eauto. Qed.
Lemma heads_clean eq l g : Forall (fun r => has_char newline r = false) l -> In g (blocks eq l) -> has_char newline (hd "" g) = false.
Proof.
  intros C G. destruct g as [|x g]; [reflexivity|]. rewrite Forall_forall in C. apply C. eapply in_blocks; [exact G|now left].
Qed.
Lemma counted_clean eq l : Forall (fun r => has_char newline r = false) l -> Forall (fun r => has_char newline r = false) (counted eq l).
Proof.
  intros C. unfold counted. apply Forall_forall. intros r I. apply in_map_iff in I as (g & <- & G).
  rewrite has_char_app, count_clean. cbn. now apply (heads_clean eq l).
Qed.
Lemma count_adjacent eq same a b : equivalence eq ->
  (forall x y, has_char newline x = false -> has_char newline y = false -> same x y = eq x y) -> ends_line a ->
  adjacent_lines (one_stream (count_merge same)) (unlines (counted eq (lines a))) (unlines (counted eq (lines b))) =
  unlines (counted eq (lines (a +++ b))).
Proof.
  intros EQ SM EA. rewrite adjacent_same by apply terminated_ends. unfold adjacent.
  assert (CA : Forall (fun r => has_char newline r = false) (lines a)) by apply records_clean.
  assert (CB : Forall (fun r => has_char newline r = false) (lines b)) by apply records_clean.
  assert (L : forall l, Forall (fun r => has_char newline r = false) l -> lines (unlines (counted eq l)) = counted eq l)
    by (intros l C; apply records_terminated, counted_clean, C).
  rewrite !L by assumption. replace (lines (a +++ b)) with (lines a ++ lines b) by (unfold lines; now rewrite records_app by exact EA).
  revert CA CB. generalize (lines a) as la. generalize (lines b) as lb. intros lb la CA CB.
  destruct (blocks eq la) as [|g1 before _] eqn:EBA using rev_ind.
  { apply blocks_nil in EBA. subst la. reflexivity. }
  destruct (blocks eq lb) as [|g2 after] eqn:EBB.
  { apply blocks_nil in EBB. subst lb. rewrite app_nil_r. unfold counted at 1. rewrite EBA, map_app, rev_app_distr. reflexivity. }
  pose proof (blocks_cut eq lb EQ g2 after EBB la before g1 EBA) as BC.
  unfold counted. rewrite BC, EBA, EBB, map_app, rev_app_distr. cbn [map rev app]. rewrite rev_involutive.
  rewrite !map_app. unfold unlines. rewrite !terminated_app. f_equal. f_equal.
  assert (H1 : has_char newline (hd "" g1) = false) by (apply (heads_clean eq la); [exact CA|rewrite EBA; apply in_app_iff; right; now left]).
  assert (H2 : has_char newline (hd "" g2) = false) by (apply (heads_clean eq lb); [exact CB|rewrite EBB; now left]).
  unfold count_merge, lines, unlines. rewrite records_terminated.
  2: { repeat constructor; rewrite has_char_app, count_clean; assumption. }
  cbn [map]. rewrite !split_text, (SM _ _ H1 H2). destruct (eq (hd "" g1) (hd "" g2)); [|reflexivity].
  cbn [map]. rewrite app_length. do 2 f_equal. pose proof (blocks_some eq la) as X. rewrite EBA in X. apply Forall_app in X as (_ & X). inversion X as [|? ? X1 _]; subst.
  now destruct g1.
Qed.
Lemma counted_output o fl x : given fl ["--help"; "--version"] = false -> given fl ["-z"] = false -> given fl ["-d"] = false -> given fl ["-u"] = false ->
  given fl ["-c"] = true -> uniq_lines o fl x = unlines (counted (uniq_same o fl) (lines x)).
Proof.
  intros G Z D U C. unfold uniq_lines. rewrite G, Z. unfold unlines, counted, lines. f_equal.
  replace (filter (selected fl) (blocks (uniq_same o fl) (records newline x))) with (blocks (uniq_same o fl) (records newline x)).
  - apply map_ext. intros g. unfold shown_block. now rewrite C.
  - symmetry. generalize (blocks (uniq_same o fl) (records newline x)). intros l. induction l as [|g l IH]; [reflexivity|].
    cbn [filter]. unfold selected at 1. rewrite D, U. cbn. now rewrite IH.
Qed.
(** The two specifications of uniq agree where both apply. *)
Lemma uniq_same_spec o fl x : given fl ["-c"; "-d"] = false -> given fl ["--group"] = false -> uniq_lines o fl x = uniq_output o fl x.
Proof.
  intros CD GR. change ["-c"; "-d"] with (["-c"] ++ ["-d"]) in CD. rewrite given_split in CD. apply orb_false_iff in CD as (C & D).
  unfold uniq_lines, uniq_output. destruct (given fl ["--help"; "--version"]); [reflexivity|].
  assert (M : group_method fl = None).
  { unfold group_method. clear -GR. assert (X : forall r, fold_left (fun r f => match f with WOption "--group" (WText m) => Some m | _ => r end) fl r = r).
    { induction fl as [|f fl IH]; intros r; [reflexivity|]. unfold given in GR. cbn [existsb] in GR. apply orb_false_iff in GR as (A & GR). cbn [fold_left].
      rewrite IH by exact GR. destruct f as [n|n []]; try reflexivity; try (clear; repeat (destruct n as [|[[] [] [] [] [] [] [] []] n]; try reflexivity); fail). cbn in A. destruct (String.eqb_spec n "--group") as [->|N]; [discriminate|].
      clear -N. repeat (destruct n as [|[[] [] [] [] [] [] [] []] n]; try reflexivity). congruence. }
    apply X. }
  rewrite M. f_equal. pose proof (blocks_some (uniq_same o fl) (records (if given fl ["-z"] then nul else newline) x)) as S.
  induction S as [|g l N _ IH]; [now destruct (given fl ["-u"])|]. cbn [filter]. unfold selected at 1. rewrite D. cbn [negb orb andb].
  destruct (given fl ["-u"]) eqn:U; cbn [negb orb flat_map].
  - destruct g as [|y [|z g]]; [congruence| |]; cbn [length Nat.leb map app]; rewrite IH; [|reflexivity]. unfold shown_block. now rewrite C.
  - cbn [map]. rewrite IH. destruct g as [|y g]; [congruence|]. unfold shown_block. now rewrite C.
Qed.
(** Running the command on two lines *)
Lemma merged_by_same o B fl ops x y : is_counting_uniq o B -> known uniq_names fl -> given fl ["-D"; "--all-repeated"; "--group"] = false ->
  given fl ["-d"; "-u"; "-z"; "--help"; "--version"] = false -> (forall x y, uniq_same o (without_count fl) x y = uniq_same o fl x y) ->
  has_char newline x = false -> has_char newline y = false -> merged_by B fl ops x y = uniq_same o fl x y.
Proof.
  intros (_ & HB) K G1 G2 E X Y. unfold merged_by.
  assert (W : forall l, ~ In "-c" l -> given (without_count fl) l = given fl l).
  { intros l NI. clear -NI. unfold given, without_count. induction fl as [|f fl IH]; [reflexivity|]. cbn [filter existsb].
    destruct (String.eqb_spec (wflag_name f) "-c") as [Ec|N]; cbn [negb existsb]; rewrite IH; [|reflexivity].
    rewrite Ec. assert (M : mem "-c" l = false) by (destruct (mem "-c" l) eqn:M; auto; exfalso; now apply NI, mem_In). now rewrite M. }
  rewrite HB.
  - assert (C : given (without_count fl) ["-c"] = false).
    { clear. unfold given, without_count. induction fl as [|f fl IH]; [reflexivity|]. cbn [filter].
      destruct (String.eqb_spec (wflag_name f) "-c") as [Ec|N]; cbn [negb existsb]; [exact IH|]. rewrite IH. cbn.
      destruct (String.eqb_spec (wflag_name f) "-c"); [contradiction|reflexivity]. }
    change ["-d"; "-u"; "-z"; "--help"; "--version"] with (["-d"] ++ ["-u"] ++ ["-z"] ++ ["--help"; "--version"]) in G2.
    rewrite !given_split in G2. apply orb_false_iff in G2 as (D & G2). apply orb_false_iff in G2 as (U & G2). apply orb_false_iff in G2 as (Z & H).
    unfold uniq_lines. rewrite !W by (cbn; intuition discriminate). rewrite H, Z.
    unfold unlines. rewrite records_terminated by (repeat constructor; assumption). cbn [blocks]. rewrite E.
    destruct (uniq_same o fl x y); cbn [filter]; unfold selected; rewrite !W by (cbn; intuition discriminate); rewrite D, U; cbn [negb orb andb map];
      unfold lines; rewrite records_terminated; try reflexivity; repeat constructor; unfold shown_block; rewrite C; assumption.
  - unfold known in *. rewrite Forall_forall in K |- *. intros f I. apply filter_In in I as (I & _). now apply K.
  - rewrite W by (cbn; intuition discriminate). exact G1.
Qed.
