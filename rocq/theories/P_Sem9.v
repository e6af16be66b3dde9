(** * C77: commands whose output depends on chance or on the order of events *)
From Coq Require Import Lia.
Require Import Verif.PyBase Verif.JsonData Verif.Parser Verif.Access Verif.IOInfo Verif.IOVars
  Verif.Transformers Verif.ParaTypes Verif.ParaGen Verif.MapperAgg Verif.SpecLists Verif.SpecIO Verif.SpecVars Verif.SpecPara
  Verif.ParserFacts Verif.ParaProps Verif.ShippedData Verif.P_Para Verif.SpecSem Verif.SemFacts Verif.SemRun Verif.SemProps
  Verif.SemSystem Verif.SpecSem2 Verif.SemProps2 Verif.P_Sem2 Verif.SpecSem4 Verif.SpecSem6 Verif.P_Sem6 Verif.SpecSem7 Verif.SemProps7 Verif.P_Sem7
  Verif.SpecSem9 Verif.SemProps9.

(** ** Any command *)
(** Concatenation gives possible outputs exactly if possible outputs of parts make up possible
    outputs of the whole. *)
Theorem C77_concat_iff : forall dir inv p c i B Q dir',
  offered dir inv p -> p_aggregator p = SpecPara.concat -> reads_one c i -> tight c -> is_cat B -> tail_closed Q ->
  parallel_may B dir' p c i (fun n => n <> 0) Q <-> piecewise_may B c i Q.
Proof.
  intros dir inv p c i B Q dir' O A R T CB QC. apply C68_concat_offered in O as (I & _); [|exact A]. split.
  - now apply may_complete.
  - now apply may_sound.
Qed.
Print Assumptions C77_concat_iff.
(** Giving exactly the output of the command is more: the output must not depend on chance.
    For any aggregator. *)
Theorem C77_settled : forall B dir p c i P Q, reads_one c i -> tight c -> p_splitter p <> INDIV_FILES ->
  parallel_ok B dir p c i P Q <-> parallel_may B dir p c i P Q /\ settled B c i Q.
Proof.
  intros B dir p c i P Q R T NI. split.
  - intros OK. split.
    + intros s t FR AR HQ DI. split; [exists (run B 0 c s); now apply OK|]. intros r E. exists 0. apply (evaluates_once _ _ _ _ _ _ _ _ E). now apply OK.
    + intros s sd sd' HQ. destruct (fresh_vars c i T) as (z & Z1 & Z2).
      set (s' := connect [z] [s i] s). set (t := Leaf z (z + 1)%Z 0).
      assert (Sz : s' z = s i) by (unfold s'; cbn; now rewrite Z.eqb_refl).
      assert (Si : s' i = s i) by (unfold s'; cbn; destruct (Z.eqb_spec i z); [lia|reflexivity]).
      assert (W : map (wflag_of c s') (v_flags c) = map (wflag_of c s) (v_flags c) /\ map (word_of c s') (v_ops c) = map (word_of c s) (v_ops c)).
      { apply (words_only c i s' s R). intros v J N. apply connect_out. intros [E|[]]; apply (Z2 v); auto; lia. }
      destruct W as (W1 & W2).
      assert (E : forall sd, evaluates B dir p c s' t (run B sd c s)).
      { intros sd0. replace (run B sd0 c s) with (run B sd0 c s') by (rewrite !(run_original B sd0 c i _ R), W1, W2, Si; reflexivity). apply OK.
        - split; [cbn; repeat constructor; cbn; lia|]. intros v J. apply Z2. cbn in J. lia.
        - exact I.
        - now rewrite Si.
        - cbn [parts t map]. rewrite Sz, Si. destruct (p_splitter p); cbn;
            first [now destruct NI|split; [cbn; now rewrite append_nil|constructor]|rewrite app_nil_r; apply Permutation_refl]. }
      exact (evaluates_once _ _ _ _ _ _ _ _ (E sd) (E sd')).
  - intros (PM & S) s t sd FR AR HQ DI. destruct (PM s t FR AR HQ DI) as ((r & E) & H). destruct (H r E) as (sd' & ->).
    rewrite (S s sd sd' HQ). exact E.
Qed.
Print Assumptions C77_settled.
(** Then nothing wrong ever appears. *)
Theorem C77_not_wrong : forall B dir p c i P Q, parallel_may B dir p c i P Q -> ~ parallel_wrong B dir p c i P Q.
Proof.
  intros B dir p c i P Q PM (s & t & r & FR & AR & HQ & DI & E & N). destruct (PM s t FR AR HQ DI) as (_ & H). destruct (H r E) as (sd & X). now apply (N sd).
Qed.
Print Assumptions C77_not_wrong.

(** ** xargs *)
Theorem C77_xargs_fine : forall inv p c v B w (Q : string -> Prop) dir,
  cmd_name inv = "xargs" -> offered shipped_dir inv p ->
  Forall (fun fo => In (fo_name fo) system_names) (flag_option_list inv) ->
  invocation_of inv c -> reads_one c v -> tight c ->
  (forall s, one_kind9 (map (wflag_of c s) (v_flags c)) /\ xargs_fine (world w) (map (wflag_of c s) (v_flags c))) ->
  tail_closed Q ->
  (forall s x, Q x -> bad_number (map (wflag_of c s) (v_flags c)) = true \/ system_input (world w) (map (wflag_of c s) (v_flags c)) x) ->
  is_xargs_system w B -> is_cat B ->
  parallel_may B dir p c v (fun n => n <> 0) Q.
Proof.
  intros inv p c v B w Q dir C OF F IN R T KS QC QI XB CB.
  apply (C77_concat_iff shipped_dir inv); auto; [now apply (concat_of inv)|]. now apply (system_piecewise inv c v B w).
Qed.
Print Assumptions C77_xargs_fine.
(** Exactly the safe uses without -a, with no or a harmless -E, give only possible outputs
    whatever the commands print and the files contain. *)
Theorem C77_xargs_iff : forall inv p c v o dir,
  cmd_name inv = "xargs" -> offered shipped_dir inv p ->
  Forall (fun fo => In (fo_name fo) system_names) (flag_option_list inv) ->
  invocation_of inv c -> reads_one c v -> tight c ->
  (forall s, one_kind9 (map (wflag_of c s) (v_flags c))) ->
  (forall B w, delimiter (world w) = delimiter o -> is_xargs_system w B -> is_cat B -> parallel_may B dir p c v (fun n => n <> 0) tidy_lines) <->
  forall s, let fl := map (wflag_of c s) (v_flags c) in xargs_fine o fl /\ (bad_number fl = true \/ end_harmless o fl).
Proof.
  intros inv p c v o dir C OF F IN R T K. assert (A := concat_of inv p C OF). split.
  - intros H s fl. apply (fine_needed o fl (map (word_of c s) (v_ops c)) (K s)). intros a b EA TI w l m k RA RB RAB.
    assert (P : piecewise_may (chance_system w) c v tidy_lines).
    { apply (C77_concat_iff shipped_dir inv p c v (chance_system w) tidy_lines dir); auto; [apply chance_cat|apply tidy_closed|].
      apply (H _ w); [reflexivity|apply chance_xargs|apply chance_cat]. }
    assert (CN : v_cmd c = "xargs") by (destruct IN as (-> & _); exact C). assert (KN := names_known inv c s _ IN F).
    fold fl in KN. assert (KF : one_kind9 fl) by apply K. set (ops := map (word_of c s) (v_ops c)).
    assert (X : forall x l, reads_items w fl x l -> exists sd, chance_system w sd "xargs" fl ops [x] = xargs_prints (loud o) fl ops l).
    { intros x l' RX. apply (chance_xargs w fl ops x l' KN KF RX). apply may_refl. }
    destruct (X a l RA) as (sd1 & E1), (X b m RB) as (sd2 & E2). destruct (P s sd1 sd2 a b EA TI) as (sd & E).
    rewrite !(put_run _ _ c v s _ R), CN in E. fold fl ops in E. rewrite E1, E2 in E.
    rewrite <- append_length. rewrite <- E. apply (may_length (loud o) fl ops k). apply (chance_xargs w fl ops (a +++ b) k KN KF RAB). eauto.
  - intros S B w D XB CB.
    assert (SE : forall fl, separator (world w) fl = separator o fl) by (intros fl; unfold separator; now rewrite D).
    assert (EE : forall fl, end_string (world w) fl = end_string o fl) by (intros fl; unfold end_string; now rewrite SE).
    apply (C77_xargs_fine inv p c v B w tidy_lines dir); auto.
    + intros s. split; [apply K|]. destruct (S s) as (SF & _). unfold xargs_fine, xargs_safe in *. now rewrite SE.
    + apply tidy_closed.
    + intros s x (U & L). destruct (S s) as (_ & [BN|EH]); [now left|right]. split.
      * unfold xargs_input. destruct (separator (world w) _); [apply U|]. split; [exact U|]. intros _. exact L.
      * apply harmless_endless; [|exact U]. unfold end_harmless in *. now rewrite EE.
Qed.
Print Assumptions C77_xargs_iff.
(** One command at a time and no questions: what C60 describes *)
Theorem C77_xargs_plain : forall w B, is_xargs_system w B -> is_xargs_full (world w) B.
Proof.
  intros w B XB seed fl ops input l KN K RI N.
  assert (NO : forall n, In n ["-P"; "-p"; "-E"; "-a"] -> given fl [n] = false).
  { intros n I. unfold given. apply not_true_iff_false. intros G. apply existsb_exists in G as (f & J & M). apply mem_In in M as [M|[]].
    unfold known in KN. rewrite Forall_forall in KN. apply KN in J. rewrite <- M in J. clear -I J. cbn in I, J. intuition (subst; discriminate). }
  assert (NI : forall f n, In f fl -> wflag_name f = n -> ~ In n ["-P"; "-p"; "-E"; "-a"]).
  { intros f n I E J. specialize (NO n J). unfold given in NO. apply not_true_iff_false in NO. apply NO. apply existsb_exists. exists f. split; [exact I|]. apply mem_In. now left. }
  assert (KN' : known system_names fl).
  { unfold known in *. rewrite Forall_forall in *. intros f I. unfold system_names. apply in_app_iff. left. now apply KN. }
  assert (K' : one_kind9 fl).
  { split; [exact K|]. split.
    - intros f n I E J. destruct (NI f n I E). cbn in *. intuition.
    - intros f I E. destruct (NI f _ I E). cbn. auto. }
  assert (SRC : source w fl input = input) by (unfold source; rewrite last_word_none by (apply NO; cbn; auto); reflexivity).
  assert (ES : end_string (world w) fl = None).
  { unfold end_string. destruct (last_none fl "-E") as (_ & ->); [apply NO; cbn; auto|]. now destruct (separator (world w) fl). }
  assert (X : reads_items w fl input l).
  { right; right. unfold all_items. rewrite SRC, RI. unfold until_end. rewrite ES. auto. }
  assert (Y : xargs_may (world w) fl ops l (B seed "xargs" fl ops [input])) by (apply (XB fl ops input l KN' K' X); eauto).
  unfold xargs_may in Y. unfold xargs_prints. destruct (given fl ["--help"; "--version"]); [exact Y|]. destruct (bad_number fl); [exact Y|].
  destruct Y as (r & order & C & E & ->). rewrite (NO "-p") in C by (cbn; auto). subst r.
  unfold processes in E. destruct (last_none fl "-P") as (NP & _); [apply NO; cbn; auto|]. rewrite NP in E. apply ending_one in E as ->.
  unfold printed. destruct (last_text fl ["-I"]); [reflexivity|]. destruct l; [|reflexivity]. destruct (given fl ["-r"]); [reflexivity|]. cbn. now rewrite append_nil.
Qed.
Print Assumptions C77_xargs_plain.

(** ** Uses *)
Definition file_system : xargs_system := mkXargsSystem echo_world (fun x => match x with WFile _ t => t | _ => "" end).
Lemma plain_one_kind9 fl : one_kind fl -> 
  forallb (fun f => match f with WFlag n => negb (mem n ["-P"; "-E"; "-a"]) | WOption n (WText _) => true | WOption n _ => String.eqb n "-a" end) fl = true -> one_kind9 fl.
Proof.
  intros K A. rewrite forallb_forall in A. split; [exact K|]. split.
  - intros f n I <- J. specialize (A f I). destruct f as [m|m x]; cbn [wflag_name] in *.
    + apply negb_true_iff in A. assert (M : mem m ["-P"; "-E"; "-a"] = true) by (apply mem_In; cbn in *; intuition). congruence.
    + destruct x; eauto; apply String.eqb_eq in A; subst m; cbn in J; intuition discriminate.
  - intros f I E. specialize (A f I). destruct f as [m|m x]; cbn [wflag_name] in *; subst m; [discriminate|eauto].
Qed.
(** Lines without this item *)
Definition without (e : string) (s : string) : Prop :=
  unquoted_lines s /\ forall l, read true None Outside newline s = Some l -> ~ In e (map fst l).
Lemma without_closed e : tail_closed (without e).
Proof.
  intros a b EA (U & N). split; [now apply (unquoted_closed a)|]. intros m E I.
  destruct (read_items_app echo_world [] a b EA) as (l & m' & _ & EB & EAB & _); [now left|split; [exact U|discriminate]|].
  change (read true None Outside newline b = Some m') in EB. change (read true None Outside newline (a +++ b) = Some (l ++ m')) in EAB. rewrite E in EB. injection EB as <-. apply (N _ EAB). rewrite map_app. apply in_app_iff. auto.
Qed.
Definition xargs_possible : list (string * list flag_el * list string * (string -> Prop)) :=
  [("xargs -P 4 -r -n 1 echo", [FOptIO "-P" (PArg "4"); FFlag "-r"; FOptIO "-n" (PArg "1")], ["echo"], unquoted_lines);
   ("xargs -P 0 -I {} echo {}", [FOptIO "-P" (PArg "0"); FOptIO "-I" (PArg "{}")], ["echo"; "{}"], unquoted_lines);
   ("xargs -p -r -n 1 echo", [FFlag "-p"; FFlag "-r"; FOptIO "-n" (PArg "1")], ["echo"], unquoted_lines);
   ("xargs -E '' -r -n 1 echo", [FOptIO "-E" (PArg ""); FFlag "-r"; FOptIO "-n" (PArg "1")], ["echo"], unquoted_lines);
   ("xargs -E END -r -n 1 echo", [FOptIO "-E" (PArg "END"); FFlag "-r"; FOptIO "-n" (PArg "1")], ["echo"], without "END")].
Theorem C77_xargs_uses : forall text flags ops Q, In (text, flags, ops, Q) xargs_possible ->
  exists inv, parse shipped_dir text = Ok inv /\
  let c := filter_civ "xargs" flags (map PArg ops) in
  invocation_of inv c /\ reads_one c 1 /\
  forall B w p dir, is_xargs_system w B -> is_cat B -> In p (stateless SpecPara.concat) ->
    offered shipped_dir inv p /\ parallel_may B dir p c 1 (fun n => n <> 0) Q.
Proof.
  intros text flags ops Q I. unfold xargs_possible in I. cbn [In] in I.
  repeat (destruct I as [E|I]; [injection E as <- <- <- <-|]); try destruct I.
  all: eexists; split; [vm_compute; reflexivity|]; cbv zeta; (split; [split; reflexivity|]); (split; [now apply filter_civ_reads|]);
    intros B w p dir XB CB I.
  all: match goal with |- offered _ ?inv _ /\ parallel_may _ _ _ ?c _ _ _ =>
         split; [now apply xargs_offered|]; apply (C77_xargs_fine inv p c 1 B w) end;
    [|now apply xargs_offered| | |now apply filter_civ_reads|now apply filter_civ_tight| | | |exact XB|exact CB];
    [reflexivity|apply Forall_forall; cbn; intuition (subst; cbn; auto 16)|split; reflexivity| | |].
  all: try apply unquoted_closed; try apply without_closed.
  all: try (intros s; split; [apply plain_one_kind9; [apply plain_one_kind; reflexivity|reflexivity]|]; split; [|right; reflexivity]; split; [reflexivity|right]; split;
    [left; reflexivity|first [left; reflexivity|right; split; [reflexivity|left; reflexivity]]]).
  all: intros s x H; right; split; [first [split; [exact H|discriminate]|split; [apply H|discriminate]]|]; intros e l E R; try discriminate E.
  injection E as <-. destruct H as (_ & H). apply H. exact R.
Qed.
Print Assumptions C77_xargs_uses.
(** -P prints in another order: exactly the same output is not to be had. *)
Theorem C77_xargs_order : forall B w p dir, is_xargs_system w B -> is_cat B -> In p (stateless SpecPara.concat) ->
  (forall ops, appended (world w) ops ["a"] +++ appended (world w) ops ["b"] <> appended (world w) ops ["b"] +++ appended (world w) ops ["a"]) ->
  let c := filter_civ "xargs" [FOptIO "-P" (PArg "2"); FFlag "-r"; FOptIO "-n" (PArg "1")] [PArg "echo"] in
  parallel_may B dir p c 1 (fun n => n <> 0) unquoted_lines /\ ~ parallel_ok B dir p c 1 (fun n => n <> 0) unquoted_lines.
Proof.
  intros B w p dir XB CB I D c. assert (R : reads_one c 1) by now apply filter_civ_reads. assert (T : tight c) by now apply filter_civ_tight.
  set (inv := mkInv "xargs" [Option_ "-P" "2"; Flag "-r"; Option_ "-n" "1"] ["echo"]).
  assert (K : forall s, one_kind9 (map (wflag_of c s) (v_flags c))).
  { intros s. apply plain_one_kind9; [apply plain_one_kind; reflexivity|reflexivity]. }
  assert (F : Forall (fun fo => In (fo_name fo) system_names) (flag_option_list inv)) by (apply Forall_forall; cbn; intuition (subst; cbn; auto 16)).
  assert (IN : invocation_of inv c) by (split; reflexivity).
  split.
  - apply (C77_xargs_fine inv p c 1 B w); auto; [now apply xargs_offered| |apply unquoted_closed|].
    + intros s. split; [apply K|]. split; [|right; reflexivity]. split; [reflexivity|right]. split; [left; reflexivity|right]. split; [reflexivity|left; reflexivity].
    + intros s x H. right. split; [split; [exact H|discriminate]|]. intros e l E. discriminate E.
  - intros OK. apply C77_settled in OK as (_ & S); [|exact R|exact T|destruct I as [<-|[<-|[]]]; discriminate].
    set (input := "a
b
"). set (s := fun _ : Z => input). set (fl := map (wflag_of c s) (v_flags c)). set (ops := map (word_of c s) (v_ops c)).
    assert (KN : known system_names fl) by (apply (names_known inv); auto).
    assert (RI : reads_items w fl input [("a", true); ("b", true)]) by (right; right; split; reflexivity).
    set (pa := appended (world w) ops ["a"]). set (pb := appended (world w) ops ["b"]).
    assert (X : forall order, ending 2 [pa; pb] order -> exists sd, B sd "xargs" fl ops [input] = joined order).
    { intros order E. apply (XB fl ops input _ KN (K s) RI). exists [pa; pb], order. split; [reflexivity|]. split; [exact E|reflexivity]. }
    destruct (X [pa; pb]) as (sd & E1); [apply ending_refl|]. destruct (X [pb; pa]) as (sd' & E2).
    { apply (end_one 2 [pa] pb []); [right; cbn; lia|]. apply ending_refl. }
    specialize (S s sd sd'). rewrite !(run_original B _ c 1 s R) in S. cbn [v_cmd c filter_civ] in S. change (s 1%Z) with input in S. fold fl ops in S. rewrite E1, E2 in S.
    cbn in S. rewrite !append_nil in S. apply (D ops). apply S. split; reflexivity.
Qed.
Print Assumptions C77_xargs_order.
Example C77_xargs_order_case : is_xargs_system file_system (chance_system file_system) /\ is_cat (chance_system file_system) /\
  (forall ops, appended (world file_system) ops ["a"] +++ appended (world file_system) ops ["b"] <>
    appended (world file_system) ops ["b"] +++ appended (world file_system) ops ["a"]) /\
  (exists seed, chance_system file_system seed "xargs" [WOption "-P" (WText "2"); WFlag "-r"; WOption "-n" (WText "1")] [WText "echo"] ["a
b
c
"] = "b
c
a
").
Proof. split; [apply chance_xargs|]. split; [apply chance_cat|]. split; [discriminate|]. exists 3. vm_compute. reflexivity. Qed.
(** Without -P 2 the orders are not possible: three items end in four orders with -P 2. *)
Example C77_orders_case : outcomes echo_world [WOption "-P" (WText "2"); WFlag "-r"; WOption "-n" (WText "1")] [] [("a", true); ("b", true); ("c", true)] =
  ["a
b
c
"; "a
c
b
"; "b
a
c
"; "b
c
a
"] /\ outcomes echo_world [WFlag "-p"; WFlag "-r"; WOption "-n" (WText "1")] [] [("a", true); ("b", true)] = ["a
b
"; "a
"; "b
"; ""].
Proof. split; vm_compute; reflexivity. Qed.

(** Refuted: -E with an item that ends the items, and -a *)
Definition arg_file_civ : civ :=
  mkCiv "xargs" [FOptIO "-a" (PVar 3); FFlag "-r"; FOptIO "-n" (PArg "1")] [PArg "echo"] (PVar 1) (PVar 2)
    (am_set (am_set (am_set am_empty 1 STREAM_INPUT) 2 STREAM_OUTPUT) 3 OTHER_INPUT).
Lemma arg_file_reads : reads_one arg_file_civ 1 /\ tight arg_file_civ.
Proof.
  assert (T : tight arg_file_civ).
  { split; [split|].
    - vm_compute. repeat constructor; cbn; intuition discriminate.
    - intros v J. vm_compute in J. destruct J as [<-|[<-|[<-|[]]]]; discriminate.
    - intros v. cbn. unfold am_set, am_empty. destruct (Z.eqb_spec v 3), (Z.eqb_spec v 2), (Z.eqb_spec v 1); subst; auto. }
  split; [|exact T]. split; [apply T|]. change (vars arg_file_civ) with [3; 1; 2]%Z. split; [|split; [|split]].
  - apply kept_no; [discriminate|]. apply kept_yes; [reflexivity|]. apply kept_no; [discriminate|constructor].
  - exists 2%Z. split; [reflexivity|]. apply kept_no; [discriminate|]. apply kept_no; [discriminate|]. apply kept_yes; [reflexivity|constructor].
  - intros x [<-|[<-|[]]] (v & E & A); [injection E as <-; discriminate|discriminate].
  - intros n a [E|[E|[E|[]]]]; discriminate.
Qed.
Definition xargs_impossible : list (string * civ * store * string * string) :=
  [("xargs -E END -r -n 1 echo", filter_civ "xargs" [FOptIO "-E" (PArg "END"); FFlag "-r"; FOptIO "-n" (PArg "1")] [PArg "echo"], (fun _ => ""), "END
", "a
"); ("xargs -a items -r -n 1 echo", arg_file_civ, (fun _ => "a
"), "", "")].
Theorem C77_xargs_refuted : forall text c s first second, In (text, c, s, first, second) xargs_impossible ->
  exists inv, parse shipped_dir text = Ok inv /\
  invocation_of inv c /\ reads_one c 1 /\ tidy_lines (first +++ second) /\ is_xargs_system file_system (chance_system file_system) /\ is_cat (chance_system file_system) /\
  (forall s, one_kind9 (map (wflag_of c s) (v_flags c))) /\
  forall p, In p (stateless SpecPara.concat) ->
    offered shipped_dir inv p /\
    parallel_wrong (chance_system file_system) shipped_dir p c 1 (fun n => n <> 0) (fun input => input = first +++ second).
Proof.
  intros text c s first second I. unfold xargs_impossible in I. cbn [In] in I.
  assert (TI : tidy_lines "END
a
").
  { split; [split; reflexivity|]. vm_compute lines. repeat apply Forall_cons; [| |apply Forall_nil].
    all: intros x e l E; vm_compute in E; destruct l as [|? l]; [now injection E|injection E as _ E; now destruct l]. }
  destruct arg_file_reads as (R' & T').
  repeat (destruct I as [E|I]; [injection E as <- <- <- <- <-|]); try destruct I.
  - eexists. split; [vm_compute; reflexivity|]. split; [split; reflexivity|]. split; [now apply filter_civ_reads|]. split; [exact TI|].
    split; [apply chance_xargs|]. split; [apply chance_cat|]. split; [intros s; apply plain_one_kind9; [apply plain_one_kind; reflexivity|reflexivity]|].
    intros p I. split; [now apply xargs_offered|].
    apply (concat_wrong (chance_system file_system) shipped_dir p _ 1 _ (fun _ => "") "END
" "a
"); [now apply filter_civ_reads|now apply filter_civ_tight|exact I|apply chance_cat|reflexivity|right; exists "END"; reflexivity| |].
    + intros [|[|sd]]; split; reflexivity.
    + intros [|[|sd]]; vm_compute; discriminate.
  - eexists. split; [vm_compute; reflexivity|]. split; [split; reflexivity|]. split; [exact R'|]. split; [split; [split; reflexivity|constructor]|].
    split; [apply chance_xargs|]. split; [apply chance_cat|]. split.
    { intros s. apply plain_one_kind9; [|reflexivity]. split; [|split].
      - intros f n [<-|[<-|[<-|[]]]] <- J; cbn in J |- *; [intuition discriminate|intuition discriminate|eauto].
      - intros n m I J N G. cbn in I, J. destruct I as [<-|[<-|[<-|[]]]], J as [<-|[<-|[<-|[]]]]; try reflexivity; try discriminate G; now destruct N.
      - intros f [<-|[<-|[<-|[]]]] E; discriminate E. }
    intros p I. split; [now apply xargs_offered|].
    apply (concat_wrong (chance_system file_system) shipped_dir p _ 1 _ (fun _ => "a
") "" ""); [exact R'|exact T'|exact I|apply chance_cat|reflexivity|now left| |].
    + intros [|[|sd]]; split; reflexivity.
    + intros [|[|sd]]; vm_compute; discriminate.
Qed.
Print Assumptions C77_xargs_refuted.
