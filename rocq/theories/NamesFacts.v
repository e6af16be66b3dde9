(** * Proofs about commands that see the names of their files *)
From Coq Require Import Lia.
Require Import Verif.PyBase Verif.JsonData Verif.Parser Verif.Access Verif.IOInfo Verif.IOVars
  Verif.Transformers Verif.ParaTypes Verif.ParaGen Verif.MapperAgg Verif.SpecLists Verif.SpecVars Verif.SpecPara Verif.SpecMapper
  Verif.ListFacts Verif.IOVarsFacts Verif.IOVarsProps Verif.MapperFacts Verif.P_Mapper
  Verif.SpecSem Verif.SemFacts Verif.SemRun Verif.SemProps Verif.SpecSem4 Verif.SpecSem6 Verif.P_Sem6 Verif.SpecNames.

(** What the command prints for an input with a name *)
Definition nout (B : nbehaviour) (c : civ) (s : store) (seed : nat) (n : option string) (x : string) : string :=
  B seed (v_cmd c) (map (wflag_of c s) (v_flags c)) (map (word_of c s) (v_ops c)) [(n, x)].
Definition label (c : civ) (i : Z) (name : string) : option string := if is_operand c i then Some name else None.
Lemma nrun_original B names seed c i s : reads_one c i -> nrun B names seed c s = nout B c s seed (label c i (names i)) (s i).
Proof. intros (_ & K & _). unfold nrun, streams. now rewrite (kept_filter _ _ _ K). Qed.
Lemma nout_only B c i s s' seed n x : reads_one c i -> (forall v, In v (vars c) -> v <> i -> s v = s' v) -> nout B c s seed n x = nout B c s' seed n x.
Proof. intros R E. unfold nout. now destruct (words_only c i s s' R E) as (-> & ->). Qed.
Lemma nput B names seed c i s x : reads_one c i -> nrun B names seed c (put i x s) = nout B c s seed (label c i (names i)) x.
Proof.
  intros R. rewrite (nrun_original B names seed c i _ R). unfold put at 2. rewrite Z.eqb_refl. apply (nout_only B c i); [exact R|].
  intros v _ N. unfold put. destruct (Z.eqb_spec v i); [contradiction|reflexivity].
Qed.
Lemma operand_renamed (f : Z -> Z) i x ops : f i = x -> (forall v, In (PVar v) ops -> v <> i -> f v <> x) ->
  existsb (fun y => match y with PVar w => Z.eqb w x | _ => false end) (map (ren f) ops) =
  existsb (fun y => match y with PVar w => Z.eqb w i | _ => false end) ops.
Proof.
  intros Fi H. induction ops as [|y ops IH]; [reflexivity|]. cbn [map existsb]. rewrite IH by (intros v I; apply H; now right). f_equal.
  destruct y as [|v| |]; cbn [ren]; try reflexivity. destruct (Z.eqb_spec v i) as [->|N]; [rewrite Fi; apply Z.eqb_refl|].
  apply Z.eqb_neq. apply H; [now left|exact N].
Qed.
Lemma mapper_nrun p c i x y : reads_one c i -> p_mapper p = seq_mapper -> p_info_mapper_aggregator p = 0 ->
  x <> y -> (v_acc c x = None /\ ~ In x (vars c)) -> (v_acc c y = None /\ ~ In y (vars c)) ->
  exists m, get_actual_mapper p c x y [] = Ok (Some m) /\ writes m y /\
    forall B names seed s, nrun B names seed m s = nout B c s seed (label c i (names x)) (s x).
Proof.
  intros R M N NE X Y. destruct (mapper_run p c i x y R M N NE X Y) as (m & G & W & E). exists m. split; [exact G|]. split; [exact W|].
  destruct R as (C & K & (o & Vo & Ko) & Ho & Hv). destruct X as (X1 & X2), Y as (Y1 & Y2).
  assert (B0 : mapper_base seq_mapper c c) by now constructor.
  destruct (C43_mapper seq_mapper c c i o x y eq_refl B0 C K Ko) as (m' & G' & S & V & A1 & A2 & A3 & A4 & A5).
  { split; [repeat constructor; cbn; intuition|]. intros w [<-|[<-|[]]]; auto. }
  assert (m' = m). { unfold get_actual_mapper in G. rewrite M, N in G. cbn [length Nat.eqb assert_ bind] in G. congruence. } subst m'.
  assert (Ii := proj1 (kept_in _ _ _ i K) (or_introl eq_refl)).
  assert (Io := proj1 (kept_in _ _ _ o Ko) (or_introl eq_refl)).
  destruct Ii as (Ii & Ai), Io as (Io & Ao). unfold with_access in Ai, Ao.
  assert (Nio : i <> o) by (intros ->; congruence).
  set (f := renamed i x o y) in *.
  assert (Fi : f i = x) by (unfold f, renamed; now rewrite Z.eqb_refl).
  assert (FN : forall v, In v (vars c) -> v <> i -> f v <> x).
  { intros v I D. unfold f, renamed. destruct (Z.eqb_spec v i); [contradiction|]. destruct (Z.eqb_spec v o); [congruence|]. intros ->. contradiction. }
  assert (OP : is_operand m x = is_operand c i).
  { unfold is_operand. rewrite (renamed_civ f c m S V). cbn [v_ops]. apply operand_renamed; [exact Fi|].
    intros v I. apply FN. now apply in_vars_op. }
  assert (ST : streams m = [x]).
  { unfold streams. rewrite V. assert (Q : forall l, (forall v, In v l -> In v (vars c)) ->
      filter (fun v => match v_acc m v with Some STREAM_INPUT => true | _ => false end) (map f l) =
      map f (filter (fun v => match v_acc c v with Some STREAM_INPUT => true | _ => false end) l)).
    { induction l as [|v l IH]; intros H; [reflexivity|]. cbn [map filter]. rewrite IH by (intros; apply H; now right).
      assert (Iv : In v (vars c)) by (apply H; now left). destruct (Z.eq_dec v i) as [->|D1]; [rewrite Fi, A1, Ai; cbn [map]; now rewrite Fi|].
      destruct (Z.eq_dec v o) as [->|D2].
      - assert (Fo : f o = y) by (unfold f, renamed; destruct (Z.eqb_spec o i); [congruence|]; now rewrite Z.eqb_refl). now rewrite Fo, A2, Ao.
      - assert (Fv : f v = v) by (unfold f, renamed; destruct (Z.eqb_spec v i), (Z.eqb_spec v o); congruence).
        rewrite Fv, A5; [destruct (v_acc c v) as [[]|]; cbn [map]; rewrite ?Fv; reflexivity|].
        cbn. intros [J|[J|[J|[J|[]]]]]; [now apply D1|now apply D2|apply X2|apply Y2]; now rewrite J. }
    rewrite Q by auto. rewrite (kept_filter _ _ _ K). cbn. now rewrite Fi. }
  intros B names seed s. unfold nrun. rewrite ST. cbn [map]. unfold called. rewrite OP. fold (label c i (names x)).
  specialize (E (fun sd cmd fl ops inputs => B sd cmd fl ops (map (fun z => (label c i (names x), z)) inputs)) seed s).
  unfold run in E. rewrite ST in E. exact E.
Qed.
Lemma cat_nrun dir c ins out outs : NoDup (out :: ins) -> length ins = length outs -> ins <> [] ->
  exists a, get_aggregator dir SpecPara.concat c ins out = Ok (Some (CONCATENATE, a)) /\ writes a out /\
    forall B names seed s, is_ncat B -> nrun B names seed a (connect ins outs s) = joined outs.
Proof.
  intros N L NE. destruct (C45_cat dir c ins out) as (a & G & E1 & E2 & E3 & E4 & E5 & A1 & A2 & A3 & T).
  exists a. split; [exact G|].
  assert (V : vars a = ins ++ [out]) by (rewrite vars_eq, E2, E3, E4, E5, varsl_map; reflexivity).
  inversion N as [|? ? Ni Nd]; subst. split.
  - split; [rewrite V; apply in_app_iff; right; now left|exact A1].
  - intros B names seed s CB. unfold nrun. rewrite E1, E2.
    assert (S : streams a = ins).
    { unfold streams. rewrite V, filter_app. rewrite filter_all, filter_none, app_nil_r; [reflexivity| |].
      - intros v [<-|[]]. now rewrite A1.
      - intros v I. rewrite A2; auto. congruence. }
    rewrite S. cbn [map]. rewrite CB by (destruct ins; [contradiction|discriminate]). f_equal. rewrite map_map. cbn [snd]. now apply connect_in.
Qed.
Lemma nall_evaluate B names dir p c s ts f : Forall (fun t => nevaluates B names dir p c s t (f t)) ts -> nevaluate_all B names dir p c s ts (map f ts).
Proof. induction 1; cbn; constructor; auto. Qed.
(** What the leaves give *)
Fixpoint nleaves (f : nat -> string -> string -> string) (names : naming) (s : store) (t : plan) : list string :=
  match t with Leaf x _ seed => [f seed (names x) (s x)] | Node _ _ ts => flat_map (nleaves f names s) ts end.
Lemma nconcat_leaves B names dir p c i s : reads_one c i -> p_mapper p = seq_mapper -> p_info_mapper_aggregator p = 0 ->
  p_aggregator p = SpecPara.concat -> is_ncat B ->
  forall t, fresh_plan c t -> arity (fun n => n <> 0) t ->
  nevaluates B names dir p c s t (joined (nleaves (fun sd n x => nout B c s sd (label c i n) x) names s t)).
Proof.
  intros R M N A CB. set (L := nleaves _ names s). induction t as [x y seed|o seed ts IH] using plan_rect'; intros FR AR.
  - destruct FR as (ND & FR). cbn in *. inversion ND as [|? ? Ni _]; subst.
    destruct (mapper_nrun p c i x y R M N) as (m & G & W & E); [intros ->; apply Ni; now left|apply FR; now left|apply FR; right; now left|].
    rewrite append_nil. rewrite <- E. now constructor.
  - pose proof (fresh_children _ _ _ _ FR) as FC. cbn in AR. destruct AR as (AN & AR). apply arity_children in AR.
    set (f := fun t => joined (L t)).
    assert (EV : nevaluate_all B names dir p c s ts (map f ts)).
    { apply nall_evaluate. rewrite Forall_forall in *. intros t I. apply IH; auto. }
    destruct (cat_nrun dir c (map root ts) o (map f ts)) as (a & G & W & E).
    + apply roots_nodup. apply FR.
    + now rewrite !map_length.
    + destruct ts; [now destruct AN|discriminate].
    + assert (E2 : joined (L (Node o seed ts)) = joined (map f ts)).
      { unfold L. cbn [nleaves]. fold L. unfold f. clear. induction ts as [|t ts IH]; [reflexivity|]. cbn [flat_map map]. rewrite joined_app, IH. reflexivity. }
      rewrite E2, <- (E B names seed s CB). econstructor; eauto. rewrite A. exact G.
Qed.
Lemma neval_once B names dir p c s t : forall r r', nevaluates B names dir p c s t r -> nevaluates B names dir p c s t r' -> r = r'.
Proof.
  induction t as [x y seed|o seed ts IH] using plan_rect'; intros r r' E E'; inversion E; subst; inversion E'; subst.
  - congruence.
  - assert (X : outs = outs0).
    { repeat match goal with H : nevaluate_all _ _ _ _ _ _ ts _ |- _ => revert H end. clear -IH. revert outs outs0.
      induction IH as [|t ts H _ IHts]; intros o1 o2 E1 E2; inversion E1; subst; inversion E2; subst; [reflexivity|]. f_equal; eauto. }
    subst outs0. congruence.
Qed.
Lemma nleaves_triples f names s t : exists l, nleaves f names s t = map (fun e => f (fst (fst e)) (snd (fst e)) (snd e)) l /\
  map s (parts t) = map snd l /\ map names (parts t) = map (fun e => snd (fst e)) l.
Proof.
  induction t as [x y seed|o seed ts IH] using plan_rect'.
  - exists [((seed, names x), s x)]. repeat split.
  - cbn [nleaves parts]. induction IH as [|t ts (l & E1 & E2 & E3) _ (m & F1 & F2 & F3)]; [exists []; repeat split|].
    exists (l ++ m). cbn [flat_map]. now rewrite !map_app, E1, E2, E3, F1, F2, F3.
Qed.
Lemma npieces (f : nat -> string -> string -> string) (Q : string -> Prop) n0 : tail_closed Q ->
  (forall sd sd1 sd2 n n1 n2 a b, ends_line a -> Q (a +++ b) -> f sd n (a +++ b) = f sd1 n1 a +++ f sd2 n2 b) ->
  forall l, l <> [] -> Q (joined (map snd l)) -> Forall ends_line (removelast (map snd l)) ->
  forall sd, f sd n0 (joined (map snd l)) = joined (map (fun e => f (fst (fst e)) (snd (fst e)) (snd e)) l).
Proof.
  intros QC H.
  assert (ONE : forall x, Q x -> forall sd sd' n n', f sd n x = f sd' n' x).
  { intros x HQ sd sd' n n'. assert (E : forall sd sd1 sd2 n n1 n2, f sd n x = f sd1 n1 "" +++ f sd2 n2 x) by (intros; apply (H _ _ _ _ _ _ ""); [now left|exact HQ]).
    pose proof (E sd 0 sd' n "" n') as E1. pose proof (E sd' 0 sd n' "" n) as E2. apply (f_equal String.length) in E2. rewrite E1, !append_length in E2.
    destruct (f 0 "" ""); [exact E1|cbn in E2; lia]. }
  induction l as [|[[sd n] x] l IH]; intros NE HQ F sd0; [now destruct NE|]. destruct l as [|e l].
  - cbn in *. rewrite !append_nil in *. now apply ONE.
  - change (map snd ((sd, n, x) :: e :: l)) with (x :: map snd (e :: l)) in *. change (joined (x :: map snd (e :: l))) with (x +++ joined (map snd (e :: l))) in *.
    change (removelast (x :: map snd (e :: l))) with (x :: removelast (map snd (e :: l))) in F. inversion F as [|? ? EX F']; subst.
    rewrite (H sd0 sd sd0 n0 n n0) by assumption. rewrite IH; [reflexivity|discriminate|now apply (QC x)|exact F'].
Qed.
(** The general form: names and contents of the parts may be anything. *)
Definition any_names (B : nbehaviour) (c : civ) (i : Z) (Q : string -> Prop) : Prop :=
  forall s sd sd1 sd2 n n1 n2 a b, ends_line a -> Q (a +++ b) ->
    nout B c s sd (label c i n) (a +++ b) = nout B c s sd1 (label c i n1) a +++ nout B c s sd2 (label c i n2) b.
Lemma named_sound B dir p c i Q : reads_one c i -> In p (stateless SpecPara.concat) -> is_ncat B -> tail_closed Q ->
  any_names B c i Q -> named_ok B dir p c i Q.
Proof.
  intros R I CB QC H names s t seed FR AR HQ DI.
  assert (M : p_mapper p = seq_mapper /\ p_info_mapper_aggregator p = 0 /\ p_aggregator p = SpecPara.concat /\ cut_at_lines (s i) (map s (parts t))).
  { destruct I as [<-|[<-|[]]]; cbn in DI; auto. }
  destruct M as (M1 & M2 & M3 & (E & CU)). rewrite (nrun_original B names seed c i s R).
  pose proof (nconcat_leaves B names dir p c i s R M1 M2 M3 CB t FR AR) as EV.
  destruct (nleaves_triples (fun sd n x => nout B c s sd (label c i n) x) names s t) as (l & L1 & L2 & _). rewrite L1 in EV.
  assert (NE : l <> []) by (intros ->; apply map_eq_nil in L2; revert L2; eapply parts_nonempty; [|exact AR]; auto).
  rewrite E. rewrite E in HQ. rewrite L2 in *.
  rewrite (npieces (fun sd n x => nout B c s sd (label c i n) x) Q (names i) QC); [exact EV|intros; now apply H|exact NE|exact HQ|exact CU].
Qed.
Lemma named_complete B dir p c i Q : reads_one c i -> tight c -> In p (stateless SpecPara.concat) -> is_ncat B ->
  named_ok B dir p c i Q -> any_names B c i Q.
Proof.
  intros R T I CB OK s sd sd1 sd2 n n1 n2 a b EA HQ.
  destruct (fresh_vars c i T) as (z & Z1 & Z2).
  set (s' := connect [i; z; z + 1]%Z [a +++ b; a; b] s). set (names := connect [i; z; z + 1]%Z [n; n1; n2] (fun _ => "")).
  set (t := Node (z + 4)%Z 0 [Leaf z (z + 2)%Z sd1; Leaf (z + 1)%Z (z + 3)%Z sd2]).
  assert (C3 : forall x y w (s : store), connect [i; z; z + 1]%Z [x; y; w] s i = x /\ connect [i; z; z + 1]%Z [x; y; w] s z = y /\ connect [i; z; z + 1]%Z [x; y; w] s (z + 1)%Z = w).
  { clear -Z1. intros x y w s. cbn -[Z.add]. rewrite Z.eqb_refl. split; [reflexivity|]. split.
    - destruct (Z.eqb_spec z i); [lia|]. now rewrite Z.eqb_refl.
    - destruct (Z.eqb_spec (z + 1) i); [lia|]. destruct (Z.eqb_spec (z + 1) z); [lia|]. now rewrite Z.eqb_refl. }
  destruct (C3 (a +++ b) a b s) as (Si & S1 & S2). destruct (C3 n n1 n2 (fun _ => "")) as (Ni & N1 & N2). fold s' in Si, S1, S2. fold names in Ni, N1, N2.
  assert (W : forall sd n x, nout B c s' sd n x = nout B c s sd n x).
  { intros. apply (nout_only B c i); [exact R|]. intros v J N. apply connect_out. intros [E|[E|[E|[]]]]; [now apply N| |]; apply (Z2 v); auto; lia. }
  assert (FR : fresh_plan c t) by (split; [cbn; repeat constructor; cbn; lia|]; intros v J; apply Z2; cbn in J; lia).
  assert (AR : arity (fun n => n <> 0) t) by (cbn; auto).
  assert (M : p_mapper p = seq_mapper /\ p_info_mapper_aggregator p = 0 /\ p_aggregator p = SpecPara.concat) by (destruct I as [<-|[<-|[]]]; auto).
  destruct M as (M1 & M2 & M3).
  assert (E : nevaluates B names dir p c s' t (nrun B names sd c s')).
  { apply OK; auto; [now rewrite Si|]. cbn [parts t flat_map map app]. rewrite Si, S1, S2.
    assert (X : cut_at_lines (a +++ b) [a; b]) by (split; [cbn; now rewrite append_nil|apply (Forall_cons a EA), Forall_nil]).
    destruct I as [<-|[<-|[]]]; exact X. }
  pose proof (neval_once _ _ _ _ _ _ _ _ _ E (nconcat_leaves B names dir p c i s' R M1 M2 M3 CB t FR AR)) as Q1.
  rewrite (nrun_original B names sd c i s' R) in Q1. cbn [nleaves t flat_map app joined fold_right] in Q1.
  rewrite append_nil, !W, Si, S1, S2, Ni, N1, N2 in Q1. exact Q1.
Qed.
