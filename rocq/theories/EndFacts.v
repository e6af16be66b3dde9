(** * Proofs about numbering *)
From Coq Require Import Lia.
Require Import Verif.PyBase Verif.JsonData Verif.Parser Verif.Access Verif.IOInfo Verif.IOGen Verif.IOVars Verif.ShippedData
  Verif.SpecLists Verif.SpecParser Verif.SpecIO Verif.SpecVars Verif.SpecPara Verif.ParserFacts Verif.ParserProps Verif.ShippedFacts Verif.IOFacts Verif.IOShipped Verif.IOVarsFacts
  Verif.SpecSem Verif.SpecSem3 Verif.SpecSem5 Verif.SemRun Verif.IOGeneral Verif.P_IO Verif.EffectFacts Verif.SpecEnd.

(** ** Variables with some access *)
Definition is_k (m : amap) (k : access) (v : Z) : bool := match m v with Some a => access_eqb a k | None => false end.
Definition kvars (m : amap) (k : access) (l : list pyval) : list Z := flat_map (fun y => filter (is_k m k) (var_of y)) l.
Lemma is_k_iff m k v : is_k m k v = true <-> m v = Some k.
Proof. unfold is_k. destruct (m v) as [a|]; [|split; discriminate]. destruct a, k; cbn; split; congruence. Qed.
Lemma kvars_app m k l l' : kvars m k (l ++ l') = kvars m k l ++ kvars m k l'.
Proof. apply flat_map_app. Qed.
Lemma kvars_kept c k l : kept (with_access c k) (flat_map var_of l) (kvars (v_acc c) k l).
Proof.
  replace (kvars (v_acc c) k l) with (filter (is_k (v_acc c) k) (flat_map var_of l)).
  - induction (flat_map var_of l) as [|v vs IH]; cbn; [constructor|]. destruct (is_k (v_acc c) k v) eqn:E.
    + constructor; [now apply is_k_iff|exact IH].
    + constructor; [intros N; apply is_k_iff in N; congruence|exact IH].
  - unfold kvars. induction l as [|y l IH]; [reflexivity|]. cbn [flat_map]. rewrite filter_app, IH. reflexivity.
Qed.
Lemma kvars_one c k x y : stands_for c x y -> (has_access x k /\ exists v, y = PVar v /\ v_acc c v = Some k /\ kvars (v_acc c) k [y] = [v]) \/
  (~ has_access x k /\ kvars (v_acc c) k [y] = []).
Proof.
  destruct x as [s|[el a]]; cbn.
  - intros ->. right. split; [intros (el & E); discriminate|reflexivity].
  - intros (v & -> & A). unfold kvars. cbn. destruct (is_k (v_acc c) k v) eqn:E.
    + apply is_k_iff in E. left. assert (a = k) by congruence. subst. split; [now exists el|]. now exists v.
    + right. split; [|reflexivity]. intros (el' & E'). injection E' as _ ->. rewrite (proj2 (is_k_iff _ _ _) A) in E. discriminate.
Qed.
Lemma kvars_none c k xs ys : Forall2 (stands_for c) xs ys -> none_has k xs <-> kvars (v_acc c) k ys = [].
Proof.
  induction 1 as [|x y xs ys S F IH]; [split; [reflexivity|intros _ x []]|].
  change (y :: ys) with ([y] ++ ys). rewrite kvars_app. destruct (kvars_one c k x y S) as [(A & v & _ & _ & ->)|(A & ->)].
  - split; [|discriminate]. intros N. destruct (N x (or_introl eq_refl) A).
  - cbn [app]. rewrite <- IH. unfold none_has. split; [intros N z I; apply N; now right|intros N z [<-|I]; auto].
Qed.
Lemma kvars_single c k xs ys : Forall2 (stands_for c) xs ys -> one_has k xs <-> exists v, kvars (v_acc c) k ys = [v].
Proof.
  induction 1 as [|x y xs ys S F IH].
  - split; [intros (l1 & x & l2 & E & _); destruct l1; discriminate|intros (v & E); discriminate].
  - change (y :: ys) with ([y] ++ ys). rewrite kvars_app. pose proof (kvars_none c k xs ys F) as KN.
    destruct (kvars_one c k x y S) as [(A & v & _ & _ & ->)|(A & ->)].
    + split.
      * intros (l1 & z & l2 & E & Z & N1 & N2). destruct l1 as [|w l1]; injection E as -> ->.
        -- apply KN in N2. exists v. now rewrite N2.
        -- destruct (N1 w (or_introl eq_refl) A).
      * intros (w & E). cbn in E. injection E as _ E. apply KN in E. exists [], x, xs. repeat split; auto. intros z [].
    + cbn [app]. rewrite <- IH. split.
      * intros (l1 & z & l2 & E & Z & N1 & N2). destruct l1 as [|w l1]; injection E as -> ->; [contradiction|].
        exists l1, z, l2. repeat split; auto. intros u I. apply N1. now right.
      * intros (l1 & z & l2 & -> & Z & N1 & N2). exists (x :: l1), z, l2. repeat split; auto. intros u [<-|I]; auto.
Qed.
(** Arguments of options: those that remain do not count. *)
Lemma kvars_options c k fs gs : k = STREAM_INPUT \/ k = STREAM_OUTPUT -> Forall2 (numbered_flag c) fs gs ->
  none_has k (flat_map (fun f => match f with OptionIO _ x => [x] | FlagIO _ => [] end) fs) <-> kvars (v_acc c) k (option_args gs) = [].
Proof.
  intros K. induction 1 as [|f g fs gs S F IH]; [split; [reflexivity|intros _ x []]|]. cbn [flat_map option_args].
  assert (AP : forall x l, none_has k (x :: l) <-> ~ has_access x k /\ none_has k l).
  { intros x l. unfold none_has. split; [intros N; split; [apply N; now left|intros z I; apply N; now right]|intros (N1 & N2) z [<-|I]; auto]. }
  destruct S as [n|n x y S|n r R1 R2]; cbn [app].
  - exact IH.
  - rewrite AP. change (y :: flat_map _ gs) with ([y] ++ option_args gs). rewrite kvars_app, IH.
    destruct (kvars_one c k x y S) as [(A & v & _ & _ & ->)|(A & ->)]; [split; [tauto|discriminate]|cbn; tauto].
  - rewrite AP, IH. change (kvars (v_acc c) k (PRes r :: flat_map _ gs)) with (kvars (v_acc c) k (option_args gs)).
    split; [tauto|intros E; split; [|exact E]]. intros (el & E'). injection E' as ->. cbn in *. destruct K; congruence.
Qed.
Lemma reads_one_eq c i : reads_one c i <->
  consistent c /\ kvars (v_acc c) STREAM_INPUT (slots c) = [i] /\
  (exists o, v_out c = PVar o /\ kvars (v_acc c) STREAM_OUTPUT (slots c) = [o]) /\
  kvars (v_acc c) STREAM_INPUT (option_args (v_flags c)) = [] /\ (forall n a, ~ In (FOptVar n a) (v_flags c)).
Proof.
  assert (K : forall k l, kept (with_access c k) (vars c) l <-> kvars (v_acc c) k (slots c) = l).
  { intros k l. split; [intros KL; symmetry; eapply kept_fun; [exact KL|apply kvars_kept]|intros <-; apply kvars_kept]. }
  assert (O : (forall x, In x (option_args (v_flags c)) -> ~ has c STREAM_INPUT x) <-> kvars (v_acc c) STREAM_INPUT (option_args (v_flags c)) = []).
  { induction (option_args (v_flags c)) as [|y l IH]; [split; [reflexivity|intros _ x []]|]. change (y :: l) with ([y] ++ l). rewrite kvars_app. split.
    - intros N. rewrite (proj1 IH) by (intros x I; apply N; now right). rewrite app_nil_r. specialize (N y (or_introl eq_refl)).
      destruct y; try reflexivity. unfold kvars. cbn. destruct (is_k (v_acc c) STREAM_INPUT v) eqn:E; [|reflexivity]. apply is_k_iff in E. destruct N. now exists v.
    - intros E. apply app_eq_nil in E as (E1 & E2). intros x [<-|I]; [|now apply IH]. intros (v & -> & A). unfold kvars in E1. cbn in E1.
      rewrite (proj2 (is_k_iff _ _ _) A) in E1. discriminate. }
  unfold reads_one. rewrite O, K. split; intros (A & B & (o & C & D) & E & F); (split; [exact A|split; [exact B|split; [exists o; split; [exact C|now apply K]|split; [exact E|exact F]]]]).
Qed.

(** ** Invocations with one stream *)
Lemma numbered_reads a c : numbered a c -> plain_streams a -> (exists i, reads_one c i) <-> one_stream a.
Proof.
  intros (_ & NF & NO & NI & NU & T) (PI & PO).
  assert (FV : forall n x, ~ In (FOptVar n x) (v_flags c)).
  { clear -NF. induction NF as [|f g fs gs S F IH]; intros n x; [intros []|]. intros [->|I]; [inversion S|exact (IH n x I)]. }
  pose proof (kvars_options c STREAM_INPUT _ _ (or_introl eq_refl) NF) as OI. pose proof (kvars_options c STREAM_OUTPUT _ _ (or_intror eq_refl) NF) as OO.
  pose proof (kvars_none c STREAM_INPUT _ _ NO) as IN. pose proof (kvars_none c STREAM_OUTPUT _ _ NO) as ON. pose proof (kvars_single c STREAM_INPUT _ _ NO) as IS.
  assert (SL : forall k, kvars (v_acc c) k (slots c) = kvars (v_acc c) k (option_args (v_flags c)) ++ kvars (v_acc c) k (v_ops c) ++ kvars (v_acc c) k [v_in c] ++ kvars (v_acc c) k [v_out c]).
  { intros k. unfold slots. rewrite !kvars_app. f_equal. f_equal. change [v_in c; v_out c] with ([v_in c] ++ [v_out c]). apply kvars_app. }
  assert (VI : (io_implicit_input a = None /\ (forall k, kvars (v_acc c) k [v_in c] = [])) \/
               (io_implicit_input a = Some stdin /\ exists v, kvars (v_acc c) STREAM_INPUT [v_in c] = [v] /\ kvars (v_acc c) STREAM_OUTPUT [v_in c] = [])).
  { destruct PI as [E|E]; rewrite E in *; cbn in NI.
    - left. rewrite NI. auto.
    - right. destruct NI as (v & -> & A). split; [reflexivity|]. exists v. unfold kvars, is_k. cbn. rewrite A. auto. }
  assert (VO : (io_implicit_output a = None /\ v_out c = PNone) \/
               (io_implicit_output a = Some stdout /\ exists v, v_out c = PVar v /\ kvars (v_acc c) STREAM_OUTPUT [v_out c] = [v] /\ kvars (v_acc c) STREAM_INPUT [v_out c] = [])).
  { destruct PO as [E|E]; rewrite E in *; cbn in NU.
    - left. auto.
    - right. destruct NU as (v & -> & A). split; [reflexivity|]. exists v. unfold kvars, is_k. cbn. rewrite A. auto. }
  assert (AP : forall l l', none_has STREAM_OUTPUT (l ++ l') <-> none_has STREAM_OUTPUT l /\ none_has STREAM_OUTPUT l').
  { intros l l'. unfold none_has. split; [intros N; split; intros x I; apply N, in_or_app; auto|intros (N1 & N2) x I; apply in_app_or in I as [I|I]; auto]. }
  unfold one_stream. rewrite AP. unfold option_io_args. rewrite OI, OO, ON, IN, IS. split.
  - intros (i & R). apply reads_one_eq in R as (_ & RI & (o & RO & RO') & RF & _). rewrite SL in RI, RO'.
    destruct VO as [(_ & VO)|(VO & v & VO1 & VO2 & VO3)]; [congruence|]. split; [exact RF|].
    assert (o = v) by congruence. subst o. rewrite VO2, !app_assoc in RO'. apply (app_inj_tail _ [] v v) in RO' as (RO' & _).
    apply app_eq_nil in RO' as (RO' & RO3). apply app_eq_nil in RO' as (RO1 & RO2). split; [auto|]. split; [exact VO|].
    rewrite RF, VO3, app_nil_r, app_nil_l in RI. destruct VI as [(VI & VI')|(VI & w & VI1 & VI2)].
    + right. split; [exact VI|]. rewrite VI', app_nil_r in RI. now exists i.
    + left. split; [exact VI|]. rewrite VI1 in RI. now apply (app_inj_tail _ [] w i) in RI as (RI & _).
  - intros (RF & (RO1 & RO2) & RO & RI). destruct VO as [(VO & _)|(_ & o & VO1 & VO2 & VO3)]; [congruence|].
    assert (X : kvars (v_acc c) STREAM_OUTPUT [v_in c] = []) by (destruct VI as [(_ & VI)|(_ & w & _ & VI)]; [apply VI|exact VI]).
    assert (Y : exists i, kvars (v_acc c) STREAM_INPUT (slots c) = [i]).
    { rewrite SL, RF, VO3, app_nil_r, app_nil_l. destruct RI as [(RI & N)|(RI & i & N)].
      - destruct VI as [(VI & _)|(_ & w & VI & _)]; [congruence|]. exists w. now rewrite N, VI.
      - destruct VI as [(_ & VI)|(VI & _)]; [|congruence]. exists i. now rewrite N, VI. }
    destruct Y as (i & Y). exists i. apply reads_one_eq. split; [apply T|]. split; [exact Y|]. split; [|split; [exact RF|exact FV]].
    exists o. split; [exact VO1|]. rewrite SL, RO1, RO2, X, VO2. reflexivity.
Qed.

(** ** Options of the shipped data *)
Definition entry_ok (file : string) (e : option_entry) : bool :=
  match entry_access e with
  | Some STREAM_INPUT => String.eqb file "diff.json" && forallb (fun n => mem n ["--from-file"; "--to-file"]) (oe_names e)
  | Some STREAM_OUTPUT => String.eqb file "sort.json" && String.eqb (hd "" (oe_names e)) "-o" 
  | _ => negb (String.eqb file "diff.json" && existsb (fun n => mem n ["--from-file"; "--to-file"]) (oe_names e))
  end.
Lemma entries_ok : forallb (fun p => forallb (entry_ok (fst p)) (j_option (snd p))) shipped_table = true.
Proof. vm_compute. reflexivity. Qed.
Lemma default_ok : forallb (fun e => match entry_access e with Some STREAM_INPUT | Some STREAM_OUTPUT => false | _ => true end)
  (j_option data_default_data_for_commands) = true.
Proof. vm_compute. reflexivity. Qed.
Lemma json_inj name file : name +++ ".json" = file +++ ".json" -> name = file.
Proof. apply sapp_inj_r. Qed.
Lemma entry_stream_input name j e : loads shipped_dir name j -> In e (j_option j) -> entry_access e = Some STREAM_INPUT ->
  name = "diff" /\ forall n, In n (oe_names e) -> In n ["--from-file"; "--to-file"].
Proof.
  intros L I E. apply shipped_loads in L as [L|[_ ->]].
  - pose proof entries_ok as K. rewrite forallb_forall in K. specialize (K _ L). cbn [fst snd] in K. rewrite forallb_forall in K. specialize (K e I).
    unfold entry_ok in K. rewrite E in K. apply andb_prop in K as (K1 & K2). apply String.eqb_eq in K1. split; [exact (json_inj _ "diff" K1)|].
    rewrite forallb_forall in K2. intros n N. apply mem_In. auto.
  - pose proof default_ok as K. rewrite forallb_forall in K. specialize (K e I). rewrite E in K. discriminate.
Qed.
Lemma entry_stream_output name j e : loads shipped_dir name j -> In e (j_option j) -> entry_access e = Some STREAM_OUTPUT ->
  name = "sort" /\ hd "" (oe_names e) = "-o".
Proof.
  intros L I E. apply shipped_loads in L as [L|[_ ->]].
  - pose proof entries_ok as K. rewrite forallb_forall in K. specialize (K _ L). cbn [fst snd] in K. rewrite forallb_forall in K. specialize (K e I).
    unfold entry_ok in K. rewrite E in K. apply andb_prop in K as (K1 & K2). apply String.eqb_eq in K1, K2. split; [exact (json_inj _ "sort" K1)|exact K2].
  - pose proof default_ok as K. rewrite forallb_forall in K. specialize (K e I). rewrite E in K. discriminate.
Qed.
Lemma diff_files j e n : loads shipped_dir "diff" j -> In e (j_option j) -> In n (oe_names e) -> In n ["--from-file"; "--to-file"] ->
  entry_access e = Some STREAM_INPUT.
Proof.
  intros L I N N'. apply shipped_loads in L as [L|[L _]]; [|vm_compute in L; discriminate].
  pose proof entries_ok as K. rewrite forallb_forall in K. specialize (K _ L). cbn [fst snd] in K. rewrite forallb_forall in K. specialize (K e I).
  unfold entry_ok in K. assert (X : existsb (fun n => mem n ["--from-file"; "--to-file"]) (oe_names e) = true).
  { apply existsb_exists. exists n. split; [exact N|]. now apply mem_In. }
  rewrite X in K. destruct (entry_access e) as [[]|]; try reflexivity; vm_compute in K; discriminate.
Qed.

Section Parsed.
  Variables (text : string) (inv : invocation) (a : invocation_io).
  Hypotheses (PA : parse shipped_dir text = Ok inv) (WI : with_io shipped_dir inv a).
  Lemma listed_flags : exists j, loads shipped_dir (cmd_name inv) j /\ Forall2 (as_listed j) (flag_option_list inv) (io_flag_option_list a).
  Proof. destruct (C15_classified_as_declared _ _ PA) as (j & fos & L & F & E). exists j. rewrite (E a WI). auto. Qed.
  Lemma in_option_args x : In x (option_io_args a) <-> exists n, In (OptionIO n x) (io_flag_option_list a).
  Proof.
    unfold option_io_args. rewrite in_flat_map. split.
    - intros ([n|n y] & I & J); [destruct J|]. destruct J as [->|[]]. eauto.
    - intros (n & I). exists (OptionIO n x). split; [exact I|now left].
  Qed.
  Lemma input_options : none_has STREAM_INPUT (option_io_args a) <->
    ~ (cmd_name inv = "diff" /\ exists name s, In (Option_ name s) (flag_option_list inv) /\ In name ["--from-file"; "--to-file"]).
  Proof.
    destruct listed_flags as (j & L & F). split.
    - intros N (D & n & s & I & J). destruct (F2_left _ _ _ _ F I) as (x & IX & A). rewrite D in L.
      inversion A as [|n' s' e Ie In' U De|n' s' e b el Ie In' U De Dn]; subst.
      + pose proof (diff_files j e n L Ie In' J) as E. rewrite (declares_access _ _ De) in E. discriminate.
      + pose proof (diff_files j e n L Ie In' J) as E. rewrite (declares_access _ _ De) in E. injection E as ->.
        apply (N (Res (mkRes el STREAM_INPUT))); [apply in_option_args; now exists n|now exists el].
    - intros N x I (el & ->). apply in_option_args in I as (n & I). destruct (F2_right _ _ _ _ F I) as (fo & IF & A).
      inversion A as [|n' s' e Ie In' U De|n' s' e b el' Ie In' U De Dn]; subst. apply N.
      destruct (entry_stream_input _ _ e L Ie (declares_access _ _ De)) as (C & K). split; [exact C|]. exists n, s'. auto.
  Qed.
  Lemma output_options : ~ (cmd_name inv = "sort" /\ uses inv "-o") -> none_has STREAM_OUTPUT (option_io_args a).
  Proof.
    destruct listed_flags as (j & L & F). intros N x I (el & ->). apply in_option_args in I as (n & I). destruct (F2_right _ _ _ _ F I) as (fo & IF & A).
    inversion A as [|n' s' e Ie In' U De|n' s' e b el' Ie In' U De Dn]; subst. apply N.
    destruct (entry_stream_output _ _ e L Ie (declares_access _ _ De)) as (C & K). split; [exact C|].
    destruct (parse_declared _ _ _ _ _ PA L IF) as (e0 & others & I0 & E0).
    rewrite <- (U e0 I0) in K by (rewrite E0; now left). rewrite E0 in K. cbn in K. subst n. now exists (Option_ "-o" s').
  Qed.
End Parsed.

(** ** Operands *)
Lemma none_in k k' l : k' <> k -> none_has k (map (in_file k') l).
Proof. intros N x I (el & E). apply in_map_iff in I as (s & <- & _). unfold in_file in E. congruence. Qed.
Lemma none_out k k' l : k' <> k -> none_has k (map (out_file k') l).
Proof. intros N x I (el & E). apply in_map_iff in I as (s & <- & _). unfold out_file in E. congruence. Qed.
Lemma none_arg k l : none_has k (map ArgString l).
Proof. intros x I (el & E). apply in_map_iff in I as (s & <- & _). discriminate. Qed.
Lemma none_all_in k l : none_has k (map (in_file k) l) <-> length l = 0.
Proof.
  split; [|destruct l; [intros _ x []|discriminate]]. destruct l as [|s l]; [reflexivity|]. intros N. destruct (N (in_file k s) (or_introl eq_refl)). eexists. reflexivity.
Qed.
Lemma none_all_out k l : none_has k (map (out_file k) l) <-> length l = 0.
Proof.
  split; [|destruct l; [intros _ x []|discriminate]]. destruct l as [|s l]; [reflexivity|]. intros N. destruct (N (out_file k s) (or_introl eq_refl)). eexists. reflexivity.
Qed.
Lemma one_all_in k l : one_has k (map (in_file k) l) <-> length l = 1.
Proof.
  split.
  - intros (l1 & x & l2 & E & A & N1 & N2). apply map_eq_app in E as (m1 & m2 & -> & E1 & E2). destruct m2 as [|s m2]; [discriminate|].
    cbn in E2. injection E2 as _ E2. subst. apply none_all_in in N1, N2. rewrite app_length. cbn. lia.
  - destruct l as [|s [|]]; try discriminate. intros _. exists [], (in_file k s), []. repeat split; try (now intros x []). eexists. reflexivity.
Qed.
Lemma none_cons_arg k s l : none_has k (ArgString s :: l) <-> none_has k l.
Proof. unfold none_has. split; [intros N x I; apply N; now right|intros N x [<-|I]; [intros (el & E); discriminate|auto]]. Qed.
Lemma one_cons_arg k s l : one_has k (ArgString s :: l) <-> one_has k l.
Proof.
  split.
  - intros ([|y l1] & x & l2 & E & A & N1 & N2); injection E as <- ->; [destruct A; discriminate|]. apply none_cons_arg in N1. exists l1, x, l2. auto.
  - intros (l1 & x & l2 & -> & A & N1 & N2). exists (ArgString s :: l1), x, l2. repeat split; auto. now apply none_cons_arg.
Qed.
Lemma none_app k l l' : none_has k (l ++ l') <-> none_has k l /\ none_has k l'.
Proof. unfold none_has. split; [intros N; split; intros x I; apply N, in_or_app; auto|intros (N1 & N2) x I; apply in_app_or in I as [I|I]; auto]. Qed.
Lemma streams_cases a xs P Q : stdin_iff a P -> stdout_iff a Q -> io_operand_list a = xs ->
  (Q -> none_has STREAM_OUTPUT (option_io_args a)) ->
  plain_streams a /\ (one_stream a <-> none_has STREAM_INPUT (option_io_args a) /\ none_has STREAM_OUTPUT xs /\ Q /\
    ((P /\ none_has STREAM_INPUT xs) \/ (~ P /\ one_has STREAM_INPUT xs))).
Proof.
  intros [(I1 & I2)|(I1 & I2)] [(O1 & O2)|(O1 & O2)] E NO; unfold plain_streams, one_stream; rewrite I2, O2, E, none_app;
    (split; [split; auto|]); split; intros HH; decompose [and or] HH; try congruence; try tauto.
Qed.
Lemma io_command inv a : with_io shipped_dir inv a -> In (cmd_name inv) io_commands.
Proof.
  intros W. destruct (in_dec string_dec (cmd_name inv) io_commands) as [I|N]; [exact I|]. apply generator_none in N.
  assert (X : get_input_output_info shipped_dir inv <> None) by (apply with_io_some; now exists a).
  destruct X. apply info_none_iff. auto.
Qed.

(** ** Which command lines have one stream *)
Lemma one_stream_lines text inv a : parse shipped_dir text = Ok inv -> with_io shipped_dir inv a ->
  plain_streams a /\ (one_stream a <-> one_stream_line inv).
Proof.
  intros PA WI. pose proof (input_options text inv a PA WI) as IO. pose proof (output_options text inv a PA WI) as OO.
  pose proof (io_command inv a WI) as C. unfold one_stream_line.
  assert (ND : forall n, cmd_name inv = n -> n <> "diff" -> none_has STREAM_INPUT (option_io_args a)) by (intros n E1 E2; apply IO; intros (E & _); congruence).
  assert (NS : forall n, cmd_name inv = n -> n <> "sort" -> none_has STREAM_OUTPUT (option_io_args a)) by (intros n E1 E2; apply OO; intros (E & _); congruence).
  assert (LN : operand_list inv = [] <-> length (operand_list inv) = 0) by (destruct (operand_list inv); cbn; split; congruence).
  assert (SI : none_has STREAM_OUTPUT (map (in_file STREAM_INPUT) (operand_list inv))) by (now apply none_in).
  assert (NI := none_all_in STREAM_INPUT (operand_list inv)). assert (OI := one_all_in STREAM_INPUT (operand_list inv)).
  assert (NU := none_all_out STREAM_OUTPUT (operand_list inv)).
  assert (NA := fun k => none_arg k (operand_list inv)).
  assert (OA : ~ one_has STREAM_INPUT (map ArgString (operand_list inv))).
  { intros (l1 & x & l2 & E & A & _). apply (NA STREAM_INPUT x); [rewrite E; apply in_elt|exact A]. }
  assert (SC : forall P xs, script_operand P (operand_list inv) xs -> none_has STREAM_OUTPUT xs /\
    ((P /\ (none_has STREAM_INPUT xs <-> length (operand_list inv) = 0) /\ (one_has STREAM_INPUT xs <-> length (operand_list inv) = 1)) \/
     (~ P /\ (none_has STREAM_INPUT xs <-> length (operand_list inv) = 1) /\ (one_has STREAM_INPUT xs <-> length (operand_list inv) = 2) /\ length (operand_list inv) <> 0))).
  { intros P xs [(H & ->)|(H & o & l & E & ->)]; [tauto|]. rewrite E. rewrite none_cons_arg. split; [now apply none_in|]. right. split; [exact H|].
    rewrite none_cons_arg, one_cons_arg, none_all_in, one_all_in. cbn. lia. }
  assert (DU : forall n, uses inv n \/ ~ uses inv n) by (intros n; destruct (uses_dec inv n); auto).
  pose proof (DU "-e") as D1. pose proof (DU "-f") as D2. pose proof (DU "-q") as D3. pose proof (DU "-o") as D4. pose proof (DU "--files0-from") as D5. clear DU.
  cbn in C. repeat (destruct C as [C|C]; [symmetry in C; pose proof C as CN|]); [..|destruct C]; rewrite C;
    pose proof (ND _ CN) as ND1; pose proof (NS _ CN) as NS1; clear ND NS;
    try specialize (ND1 ltac:(discriminate)); try specialize (NS1 ltac:(discriminate)).
  Ltac script D1 D2 D3 S1 S2 ND1 :=
    match goal with |- context [length ?l] =>
      let n := fresh "n" in generalize (length l); intros n; clear - D1 D2 D3 S1 S2 ND1;
      assert (n <= 1 <-> n = 0 \/ n = 1) by lia; assert (~ (n = 0 /\ n = 1)) by lia; assert (~ (n = 1 /\ n = 2)) by lia; assert (~ (n = 0 /\ n = 2)) by lia; tauto
    end.
  Ltac known C := rewrite C; cbn; tauto.
  Ltac done ND1 := split; [assumption|]; intuition (try congruence; try lia).
  - (* alt_bigrams_aux *) apply C24_filters in WI as ((_ & _ & E) & I & O); [|known C]. destruct (streams_cases a _ _ _ I O E (fun _ => NS1)) as (PS & ->). rewrite NI, OI. done ND1.
  - (* alt_bigram_aux_reduce *) apply C24_alt_bigram_aux_reduce in WI as ((_ & _ & E) & I & O); [|exact C]. destruct (streams_cases a _ _ _ I O E (fun _ => NS1)) as (PS & ->). rewrite NI, OI. done ND1.
  - (* awk *) apply C20_awk in WI as (xs & S & (_ & _ & E) & I & O); [|exact C]. destruct (streams_cases a _ _ _ I O E (fun _ => NS1)) as (PS & ->). split; [exact PS|]. destruct (SC _ _ S) as (S1 & [(S2 & -> & ->)|(S2 & -> & -> & S3)]); script D1 D2 D3 S1 S2 ND1.
  - (* bigrams_aux *) apply C24_filters in WI as ((_ & _ & E) & I & O); [|known C]. destruct (streams_cases a _ _ _ I O E (fun _ => NS1)) as (PS & ->). rewrite NI, OI. done ND1.
  - (* cat *) apply C19_cat_cut_head_tail in WI as ((_ & _ & E) & I & O); [|known C]. destruct (streams_cases a _ _ _ I O E (fun _ => NS1)) as (PS & ->). rewrite NI, OI, LN. done ND1.
  - (* col *) apply C24_filters in WI as ((_ & _ & E) & I & O); [|known C]. destruct (streams_cases a _ _ _ I O E (fun _ => NS1)) as (PS & ->). rewrite NI, OI. done ND1.
  - (* comm *) apply C22_comm in WI as (N & (_ & _ & E) & I & O); [|exact C]. destruct (streams_cases a _ _ _ I O E (fun _ => NS1)) as (PS & ->). rewrite NI, OI. done ND1.
  - (* custom_sort *) apply C19_sort in WI as ((_ & _ & E) & I & O); [|known C]. destruct (streams_cases a _ _ _ I O E) as (PS & ->); [intros _; exact NS1|]. rewrite NI, OI, LN. done ND1.
  - (* custom_tr *) apply C24_tr_xargs in WI as ((_ & _ & E) & I & O); [|known C]. destruct (streams_cases a _ _ _ I O E (fun _ => NS1)) as (PS & ->). split; [exact PS|]. pose proof (NA STREAM_INPUT). pose proof (NA STREAM_OUTPUT). tauto.
  - (* cut *) apply C19_cat_cut_head_tail in WI as ((_ & _ & E) & I & O); [|known C]. destruct (streams_cases a _ _ _ I O E (fun _ => NS1)) as (PS & ->). rewrite NI, OI, LN. done ND1.
  - (* diff *) apply C22_diff in WI as ((_ & _ & E) & I & O); [|exact C]. destruct (streams_cases a _ _ _ I O E (fun _ => NS1)) as (PS & ->). rewrite NI, OI, IO. split; [exact PS|]. clear - SI C. tauto.
  - (* grep *) apply C20_grep in WI as (xs & S & (_ & _ & E) & I & O); [|exact C]. destruct (streams_cases a _ _ _ I O E (fun _ => NS1)) as (PS & ->). split; [exact PS|]. destruct (SC _ _ S) as (S1 & [(S2 & -> & ->)|(S2 & -> & -> & S3)]); script D1 D2 D3 S1 S2 ND1.
  - (* head *) apply C19_cat_cut_head_tail in WI as ((_ & _ & E) & I & O); [|known C]. destruct (streams_cases a _ _ _ I O E (fun _ => NS1)) as (PS & ->). rewrite NI, OI, LN. done ND1.
  - (* mkfifo *) apply C23_rm_mkfifo in WI as ((_ & _ & E) & I & O); [|known C]. destruct (streams_cases a _ _ _ I O E (fun _ => NS1)) as (PS & ->). done ND1.
  - (* mv *) apply C23_mv in WI as (_ & I & O); [|exact C]. destruct (streams_cases a _ _ _ I O eq_refl (fun _ => NS1)) as (PS & ->). done ND1.
  - (* rm *) apply C23_rm_mkfifo in WI as ((_ & _ & E) & I & O); [|known C]. destruct (streams_cases a _ _ _ I O E (fun _ => NS1)) as (PS & ->). done ND1.
  - (* sed *) apply C21_sed in WI as (xs & S & (_ & _ & E) & I & O); [|exact C]. destruct (streams_cases a _ _ _ I O E (fun _ => NS1)) as (PS & ->). split; [exact PS|]. destruct (SC _ _ S) as (S1 & [(S2 & -> & ->)|(S2 & -> & -> & S3)]); script D1 D2 D3 S1 S2 ND1.
  - (* set_diff *) apply C22_set_diff in WI as (N & (_ & _ & E) & I & O); [|exact C]. destruct (streams_cases a _ _ _ I O E (fun _ => NS1)) as (PS & ->). split; [exact PS|]. assert (none_has STREAM_INPUT (map (in_file CONFIG_INPUT) (operand_list inv))) by (now apply none_in). assert (none_has STREAM_OUTPUT (map (in_file CONFIG_INPUT) (operand_list inv))) by (now apply none_in). tauto.
  - (* seq *) apply C24_seq in WI as ((_ & _ & E) & I & O); [|exact C]. destruct (streams_cases a _ _ _ I O E (fun _ => NS1)) as (PS & ->). split; [exact PS|]. pose proof (NA STREAM_INPUT). pose proof (NA STREAM_OUTPUT). tauto.
  - (* sort *) apply C19_sort in WI as ((_ & _ & E) & I & O); [|known C]. destruct (streams_cases a _ _ _ I O E) as (PS & ->); [intros Q; apply OO; tauto|]. rewrite NI, OI, LN. done ND1.
  - (* tail *) apply C19_cat_cut_head_tail in WI as ((_ & _ & E) & I & O); [|known C]. destruct (streams_cases a _ _ _ I O E (fun _ => NS1)) as (PS & ->). rewrite NI, OI, LN. done ND1.
  - (* tee *) apply C23_tee in WI as ((_ & _ & E) & I & O); [|exact C]. destruct (streams_cases a _ _ _ I O E (fun _ => NS1)) as (PS & ->). rewrite NU. split; [exact PS|]. assert (none_has STREAM_INPUT (map (out_file STREAM_OUTPUT) (operand_list inv))) by (now apply none_out). tauto.
  - (* test_one *) apply C24_filters in WI as ((_ & _ & E) & I & O); [|known C]. destruct (streams_cases a _ _ _ I O E (fun _ => NS1)) as (PS & ->). rewrite NI, OI. done ND1.
  - (* test_two *) apply C24_filters in WI as ((_ & _ & E) & I & O); [|known C]. destruct (streams_cases a _ _ _ I O E (fun _ => NS1)) as (PS & ->). rewrite NI, OI. done ND1.
  - (* tr *) apply C24_tr_xargs in WI as ((_ & _ & E) & I & O); [|known C]. destruct (streams_cases a _ _ _ I O E (fun _ => NS1)) as (PS & ->). split; [exact PS|]. pose proof (NA STREAM_INPUT). pose proof (NA STREAM_OUTPUT). tauto.
  - (* uniq *) apply C22_uniq in WI as [(L & (_ & _ & E) & I & O)|[(f & L & (_ & _ & E) & I & O)|(f & g & L & (_ & _ & E) & I & O)]]; [| | |exact C];
    destruct (streams_cases a _ _ _ I O E (fun _ => NS1)) as (PS & ->); (split; [exact PS|]); rewrite L in *; cbn [map] in *.
    + assert (forall k, none_has k []) by (intros k x []). cbn. intuition lia.
    + cbn in *. intuition lia.
    + cbn. intuition lia.
  - (* wc *) apply C19_wc in WI as (N & (_ & _ & E) & I & O); [|exact C]. destruct (streams_cases a _ _ _ I O E (fun _ => NS1)) as (PS & ->). rewrite NI, OI, LN. done ND1.
  - (* xargs *) apply C24_tr_xargs in WI as ((_ & _ & E) & I & O); [|known C]. destruct (streams_cases a _ _ _ I O E (fun _ => NS1)) as (PS & ->). split; [exact PS|]. pose proof (NA STREAM_INPUT). pose proof (NA STREAM_OUTPUT). tauto.
Qed.

(** ** Every invocation can be numbered *)
Definition put (k : nat) (x : option io_arg) : pyval :=
  match x with Some (ArgString s) => PArg s | Some (Res _) => PVar (Z.of_nat k) | None => PNone end.
Fixpoint puts (k : nat) (l : list (option io_arg)) : list pyval :=
  match l with [] => [] | x :: l' => put k x :: puts (S k) l' end.
Fixpoint put_flags (k : nat) (l : list flag_option_io) : list flag_el :=
  match l with
  | [] => []
  | FlagIO n :: l' => FFlag n :: put_flags k l'
  | OptionIO n x :: l' => FOptIO n (put k (Some x)) :: put_flags (S k) l'
  end.
Definition places (a : invocation_io) : list (option io_arg) :=
  map Some (option_io_args a) ++ map Some (io_operand_list a) ++ [option_map Res (io_implicit_input a); option_map Res (io_implicit_output a)].
Definition place_access (l : list (option io_arg)) (v : Z) : option access :=
  if (v <? 0)%Z then None else match nth_error l (Z.to_nat v) with Some (Some (Res r)) => Some (res_access r) | _ => None end.
Definition number_it (a : invocation_io) : civ :=
  let n := length (option_io_args a) in let m := n + length (io_operand_list a) in
  mkCiv (io_cmd_name a) (put_flags 0 (io_flag_option_list a)) (puts n (map Some (io_operand_list a)))
    (put m (option_map Res (io_implicit_input a))) (put (S m) (option_map Res (io_implicit_output a))) (place_access (places a)).
Lemma puts_app l : forall k l', puts k (l ++ l') = puts k l ++ puts (k + length l) l'.
Proof. induction l as [|x l IH]; intros k l'; cbn; [now rewrite Nat.add_0_r|]. rewrite IH. cbn. now rewrite Nat.add_succ_r. Qed.
Lemma put_flags_args l : forall k, option_args (put_flags k l) = puts k (map Some (flat_map (fun f => match f with OptionIO _ x => [x] | FlagIO _ => [] end) l)).
Proof. induction l as [|[n|n x] l IH]; intros k; cbn; [reflexivity|apply IH|]. f_equal. apply IH. Qed.
Lemma number_slots a : slots (number_it a) = puts 0 (places a).
Proof.
  unfold slots, places, number_it. cbn [v_flags v_ops v_in v_out]. rewrite !puts_app, !map_length, put_flags_args. cbn [puts]. f_equal.
Qed.
Lemma puts_vars l : forall k v, In v (flat_map var_of (puts k l)) <-> exists m r, v = Z.of_nat (k + m) /\ nth_error l m = Some (Some (Res r)).
Proof.
  induction l as [|x l IH]; intros k v; cbn [puts flat_map].
  - split; [intros []|intros (m & r & _ & E); destruct m; discriminate].
  - rewrite in_app_iff, IH. split.
    + intros [I|(m & r & -> & E)].
      * destruct x as [[s|r]|]; cbn in I; [destruct I| |destruct I]. destruct I as [<-|[]]. exists 0, r. rewrite Nat.add_0_r. auto.
      * exists (S m), r. split; [f_equal; lia|exact E].
    + intros (m & r & -> & E). destruct m as [|m]; cbn in E.
      * injection E as ->. left. cbn. left. f_equal. lia.
      * right. exists m, r. split; [f_equal; lia|exact E].
Qed.
Lemma puts_nodup l : forall k, NoDup (flat_map var_of (puts k l)).
Proof.
  induction l as [|x l IH]; intros k; cbn [puts flat_map]; [constructor|].
  destruct x as [[s|r]|]; cbn [put var_of app]; [apply IH| |apply IH]. constructor; [|apply IH].
  intros I. apply puts_vars in I as (m & r' & E & _). apply Nat2Z.inj in E. lia.
Qed.
Lemma access_at l k : place_access l (Z.of_nat k) = match nth_error l k with Some (Some (Res r)) => Some (res_access r) | _ => None end.
Proof. unfold place_access. destruct (Z.ltb_spec (Z.of_nat k) 0); [lia|]. now rewrite Nat2Z.id. Qed.
Lemma put_stands c l k x : v_acc c = place_access l -> nth_error l k = Some (Some x) -> stands_for c x (put k (Some x)).
Proof. intros A E. destruct x as [s|r]; [reflexivity|]. exists (Z.of_nat k). split; [reflexivity|]. now rewrite A, access_at, E. Qed.
Lemma skipn_next {A} (x : A) r : forall k l, skipn k l = x :: r -> skipn (S k) l = r.
Proof. induction k as [|k IH]; intros [|y l] E; try discriminate; cbn in *; [congruence|]. now apply IH. Qed.
Lemma puts_stand c l xs : v_acc c = place_access l -> forall k post, skipn k l = map Some xs ++ post -> Forall2 (stands_for c) xs (puts k (map Some xs)).
Proof.
  intros A. induction xs as [|x xs IH]; intros k post E; cbn; constructor.
  - apply (put_stands c l); [exact A|]. assert (K : k <= length l).
    { destruct (Nat.le_gt_cases k (length l)); [assumption|]. rewrite skipn_all2 in E by lia. discriminate. }
    rewrite <- (firstn_skipn k l), E, nth_error_app2; rewrite firstn_length_le by exact K; [|lia]. now rewrite Nat.sub_diag.
  - apply (IH (S k) post). eapply skipn_next. exact E.
Qed.
Lemma flags_stand c l fs : v_acc c = place_access l -> forall k post,
  skipn k l = map Some (flat_map (fun f => match f with OptionIO _ x => [x] | FlagIO _ => [] end) fs) ++ post -> Forall2 (numbered_flag c) fs (put_flags k fs).
Proof.
  intros A. induction fs as [|[n|n x] fs IH]; intros k post E; cbn; constructor.
  - constructor.
  - now apply (IH k post).
  - constructor. cbn in E. assert (F := puts_stand c l [x] A k _ E). now inversion F.
  - cbn in E. apply (IH (S k) post). eapply skipn_next. exact E.
Qed.
Lemma number_it_numbered a : numbered a (number_it a).
Proof.
  set (c := number_it a). assert (A : v_acc c = place_access (places a)) by reflexivity. split; [reflexivity|]. split.
  { eapply (flags_stand c (places a) (io_flag_option_list a) A 0). cbn [skipn]. reflexivity. }
  assert (SK : forall n m (l : list (option io_arg)) l', length l = n -> m = 0 -> skipn (n + m) (l ++ l') = l').
  { intros n m l l' <- ->. rewrite Nat.add_0_r, skipn_app, Nat.sub_diag, skipn_all. reflexivity. }
  split.
  { eapply (puts_stand c (places a) (io_operand_list a) A). unfold places. rewrite <- (Nat.add_0_r (length (option_io_args a))). apply SK; [apply map_length|reflexivity]. }
  assert (N : forall i x, nth_error [option_map Res (io_implicit_input a); option_map Res (io_implicit_output a)] i = Some x ->
    nth_error (places a) (length (option_io_args a) + length (io_operand_list a) + i) = Some x).
  { intros i x E. unfold places. rewrite app_assoc, nth_error_app2; rewrite app_length, !map_length; [|lia].
    replace (_ + _ + i - _) with i by lia. exact E. }
  split.
  { specialize (N 0 _ eq_refl). rewrite Nat.add_0_r in N. unfold c, number_it. cbn [v_in].
    destruct (io_implicit_input a) as [r|]; cbn [numbered_implicit option_map] in *; [|reflexivity]. exact (put_stands c (places a) _ (Res r) A N). }
  split.
  { specialize (N 1 _ eq_refl). rewrite Nat.add_1_r in N. unfold c, number_it. cbn [v_out].
    destruct (io_implicit_output a) as [r|]; cbn [numbered_implicit option_map] in *; [|reflexivity]. exact (put_stands c (places a) _ (Res r) A N). }
  assert (V : vars c = flat_map var_of (puts 0 (places a))) by (unfold vars, c; now rewrite number_slots). unfold tight, consistent. rewrite V, A. split; [split|].
  - apply puts_nodup.
  - intros v I. apply puts_vars in I as (m & r & -> & E). cbn [Nat.add]. rewrite access_at, E. discriminate.
  - intros v E. apply puts_vars. unfold place_access in E. destruct (Z.ltb_spec v 0); [congruence|].
    destruct (nth_error (places a) (Z.to_nat v)) as [[[s|r]|]|] eqn:N'; try congruence. exists (Z.to_nat v), r. split; [cbn; lia|exact N'].
Qed.

(** ** Numbered invocations are invocations of what was parsed *)
Lemma numbered_names c fs gs : Forall2 (numbered_flag c) fs gs -> map fe_name gs = map (fun f => match f with FlagIO n => n | OptionIO n _ => n end) fs.
Proof. induction 1 as [|f g l l' H F IH]; [reflexivity|]. cbn. rewrite IH. f_equal. now destruct H. Qed.
Lemma reading_names fos fs : Forall2 fo_reading fos fs -> map fo_name fos = map (fun f => match f with FlagIO n => n | OptionIO n _ => n end) fs.
Proof. induction 1 as [|f g l l' H F IH]; [reflexivity|]. cbn. rewrite IH. f_equal. now destruct H. Qed.
Lemma numbered_invocation dir inv a c : with_io dir inv a -> numbered a c -> invocation_of inv c.
Proof.
  intros W (N1 & NF & _). destruct (with_io_reads dir inv a W) as (N & F & _). split; [congruence|].
  now rewrite (numbered_names _ _ _ NF), (reading_names _ _ F).
Qed.
(** What the command gets to see of its flags and options *)
Lemma numbered_words c s fos fs gs names : Forall2 fo_reading fos fs -> Forall2 (numbered_flag c) fs gs ->
  (forall n r, In (OptionIO n (Res r)) fs -> ~ In n names) ->
  Forall2 (fun fo f => wflag_name f = fo_name fo /\ (In (fo_name fo) names -> f = as_word fo)) fos (map (wflag_of c s) gs).
Proof.
  intros R. revert gs. induction R as [|fo f fos fs H R IH]; intros gs NF K; inversion NF as [|f' g fs' gs' H' NF']; subst; cbn [map]; constructor.
  - destruct H' as [n|n x y S|n r R1 R2]; inversion H as [m|m t z AR]; subst; cbn.
    + auto.
    + split; [reflexivity|]. intros I. destruct AR as [->|(ac & el & -> & _)].
      * cbn in S. now subst y.
      * destruct (K n _ (or_introl eq_refl) I).
    + split; [reflexivity|]. intros I. destruct (K n r (or_introl eq_refl) I).
  - apply IH; [exact NF'|]. intros n r I. apply (K n r). now right.
Qed.
Definition seen_as (names : list string) (inv : invocation) (fl : list wflag) : Prop :=
  Forall2 (fun fo f => wflag_name f = fo_name fo /\ (In (fo_name fo) names -> f = as_word fo)) (flag_option_list inv) fl.
Lemma seen_given names inv fl l : seen_as names inv fl -> given fl l = given (as_words inv) l.
Proof.
  unfold seen_as, as_words, given. induction 1 as [|fo f fos fl (E & _) F IH]; [reflexivity|]. cbn. rewrite IH. f_equal.
  rewrite E. now destruct fo.
Qed.
Lemma seen_number names inv fl l : seen_as names inv fl -> (forall n, In n l -> In n names) -> last_number fl l = last_number (as_words inv) l.
Proof.
  unfold seen_as, as_words, last_number. intros S SUB. generalize (@None nat) as z. induction S as [|fo f fos fl (E & H) F IH]; intros z; [reflexivity|]. cbn [map fold_left].
  destruct (in_dec string_dec (fo_name fo) names) as [I|N].
  - rewrite (H I). apply IH.
  - assert (M : mem (fo_name fo) l = false) by (apply mem_not_In; intros J; apply N, SUB, J). rewrite IH. f_equal.
    assert (M' : mem (wflag_name f) l = false) by (now rewrite E).
    destruct f as [n|n [|t|r|k|k t]], fo as [m|m u]; cbn in M, M' |- *; rewrite ?M, ?M'; reflexivity.
Qed.
Lemma seen_group names inv fl : seen_as names inv fl -> In "--group" names -> group_method fl = group_method (as_words inv).
Proof.
  unfold seen_as, as_words, group_method. intros S SUB. generalize (@None string) as z. induction S as [|fo f fos fl (E & H) F IH]; intros z; [reflexivity|]. cbn [map fold_left].
  destruct (string_dec (fo_name fo) "--group") as [I|N].
  - rewrite H by (now rewrite I). apply IH.
  - rewrite IH. f_equal. assert (G : forall g r, wflag_name g <> "--group" -> match g with WOption "--group" (WText m) => Some m | _ => r end = r :> option string).
    { intros [n|n w] r NE; [reflexivity|]. cbn in NE. destruct (string_dec n "--group"); [contradiction|]. destruct w; try (repeat (destruct n as [|[[] [] [] [] [] [] [] []] n]; try reflexivity); contradiction). }
    rewrite !G; [reflexivity| |]; [|congruence]. destruct fo; exact N.
Qed.
Lemma seen_random names inv fl : seen_as names inv fl -> In "-R" names -> In "--sort" names -> In "-k" names -> random_order fl = random_order (as_words inv).
Proof.
  unfold seen_as, as_words, random_order. intros S A B C. induction S as [|fo f fos fl (E & H) F IH]; [reflexivity|]. cbn [map existsb]. rewrite IH. f_equal.
  destruct (in_dec string_dec (fo_name fo) ["-R"; "--sort"; "-k"]) as [I|N].
  - rewrite H; [reflexivity|]. destruct I as [<-|[<-|[<-|[]]]]; assumption.
  - assert (G : forall g, ~ In (wflag_name g) ["-R"; "--sort"; "-k"] -> random_flag g = false).
    { intros [n|n w] NI; cbn in *.
      - destruct (String.eqb_spec n "-R"); [|reflexivity]. subst. tauto.
      - destruct w; try reflexivity. destruct (String.eqb_spec n "--sort"), (String.eqb_spec n "-k"); subst; try tauto; reflexivity. }
    rewrite !G; [reflexivity| |]; [|now rewrite E]. destruct fo; exact N.
Qed.

Definition file_option_names (j : json_data) : list string := flat_map (fun e => match entry_access e with Some _ => oe_names e | None => [] end) (j_option j).
Lemma seen text inv a c s name names : parse shipped_dir text = Ok inv -> with_io shipped_dir inv a -> numbered a c -> cmd_name inv = name ->
  (exists j, loads shipped_dir name j /\ forallb (fun n => negb (mem n names)) (file_option_names j) = true) -> seen_as names inv (map (wflag_of c s) (v_flags c)).
Proof.
  intros PA WI (_ & NF & _) C (j & J & K). destruct (with_io_reads _ _ _ WI) as (_ & F & _). apply (numbered_words c s _ _ _ names F NF).
  destruct (listed_flags text inv a PA WI) as (j' & L & AL). intros n r I N.
  destruct (F2_right _ _ _ _ AL I) as (fo & _ & A). inversion A as [|n' s' e Ie In' U De|n' s' e b el Ie In' U De Dn]; subst.
  assert (j' = j). { apply (loads_fun shipped_dir (cmd_name inv)); [exact L|exact J]. } subst j'.
  rewrite forallb_forall in K. specialize (K n). rewrite (proj2 (mem_In _ _) N) in K. discriminate K. unfold file_option_names.
  apply in_flat_map. exists e. split; [exact Ie|]. now rewrite (declares_access _ _ De).
Qed.
Lemma streams_in_reads a c v : numbered a c -> (exists i, reads_one c i) -> streams_in c v -> reads_one c v.
Proof.
  intros (_ & _ & _ & _ & _ & (_ & T)) (i & R) S. destruct R as (R1 & R2 & R3). assert (v = i) as ->.
  { assert (I : In v (vars c)) by (apply T; unfold streams_in in S; congruence).
    apply kept_filter in R2. assert (X : In v [i]); [|destruct X as [->|[]]; reflexivity]. rewrite <- R2. apply filter_In. split; [exact I|].
    unfold streams_in in S. now rewrite S. }
  split; [exact R1|]. now split.
Qed.
Lemma reads_streams_in c i : reads_one c i -> streams_in c i.
Proof.
  intros (_ & K & _). apply kept_filter in K. assert (I : In i [i]) by (now left). rewrite <- K in I. apply filter_In in I as (_ & I).
  unfold streams_in. destruct (v_acc c i) as [[]|]; try discriminate. reflexivity.
Qed.

(** Commands without files in options see them as written; so do operands that are strings. *)
Lemma seen_all text inv a c s name : parse shipped_dir text = Ok inv -> with_io shipped_dir inv a -> numbered a c -> cmd_name inv = name ->
  (exists j, loads shipped_dir name j /\ file_option_names j = []) -> map (wflag_of c s) (v_flags c) = as_words inv.
Proof.
  intros PA WI N C (j & L & E). pose proof (seen text inv a c s name (map fo_name (flag_option_list inv)) PA WI N C) as S.
  assert (X : seen_as (map fo_name (flag_option_list inv)) inv (map (wflag_of c s) (v_flags c))) by (apply S; exists j; split; [exact L|now rewrite E]).
  unfold seen_as in X. unfold as_words. revert X. generalize (map (wflag_of c s) (v_flags c)) as fl.
  assert (G : forall fos names fl, (forall fo, In fo fos -> In (fo_name fo) names) ->
    Forall2 (fun fo f => wflag_name f = fo_name fo /\ (In (fo_name fo) names -> f = as_word fo)) fos fl -> fl = map as_word fos).
  { intros fos names fl SUB F. induction F as [|fo f fos fl (_ & H) F IH]; [reflexivity|]. cbn. rewrite (H (SUB fo (or_introl eq_refl))), IH; [reflexivity|].
    intros x I. apply SUB. now right. }
  intros fl X. apply (G _ _ _ (fun fo I => in_map fo_name _ fo I) X).
Qed.
Lemma string_operands c xs ys ops s : Forall2 (stands_for c) xs ys -> xs = map ArgString ops -> map (word_of c s) ys = map WText ops.
Proof.
  intros F. revert ops. induction F as [|x y xs ys S F IH]; intros [|o ops] E; try discriminate; [reflexivity|]. injection E as -> E. cbn in S. subst y. cbn. now rewrite (IH ops E).
Qed.
