(** * C60: xargs with a limit on the length of command lines, and with a slot variable *)
From Coq Require Import Lia.
Require Import Verif.PyBase Verif.JsonData Verif.Parser Verif.Access Verif.IOInfo Verif.IOVars
  Verif.Transformers Verif.ParaTypes Verif.ParaGen Verif.MapperAgg Verif.SpecLists Verif.SpecIO Verif.SpecVars Verif.SpecPara
  Verif.ParserFacts Verif.ParaProps Verif.ShippedData Verif.P_Para Verif.SpecSem Verif.SemFacts Verif.SemRun Verif.SemProps Verif.SemSystem Verif.SpecSem2
  Verif.SemProps2 Verif.SpecSem4 Verif.SemProps4 Verif.SpecSem6 Verif.P_Sem6 Verif.SpecSem7 Verif.SemProps7 Verif.P_Sem7 Verif.P_Sem Verif.P_Sem2 Verif.SpecSize.

Fixpoint repeated (a : ascii) (n : nat) : string := match n with 0 => "" | S n => String a (repeated a n) end.
Lemma repeated_length a n : String.length (repeated a n) = n.
Proof. induction n as [|n IH]; cbn; congruence. Qed.
Lemma repeated_char a b n : a <> b -> has_char b (repeated a n) = false.
Proof. intros N. induction n as [|n IH]; cbn; [reflexivity|]. rewrite IH, orb_false_r. apply Ascii.eqb_neq. congruence. Qed.
Definition letter (a : ascii) : Prop := a = "a"%char \/ a = "b"%char.
(** A word of letters is the beginning of the first item. *)
Lemma read_letters bl a n : letter a -> forall i rest, read bl (Some i) Outside a (repeated a n +++ String newline rest) =
  emit (Some (i +++ repeated a n)) true (read bl None Outside newline rest).
Proof.
  intros L. induction n as [|n IH]; intros i rest.
  - cbn [repeated String.append]. rewrite append_nil. destruct bl, L as [-> | ->]; reflexivity.
  - cbn [repeated String.append]. replace (i +++ String a (repeated a n)) with ((i +++ String a "") +++ repeated a n) by now rewrite append_assoc.
    rewrite <- IH. destruct bl, L as [-> | ->]; reflexivity.
Qed.
Lemma first_letters (o : xargs_world) fl n : exists a, letter a /\ forall rest, ((exists l, read_items o fl rest = Some l) -> exists x e l, read_items o fl (repeated a (S n) +++ String newline rest) = Some ((x, e) :: l) /\ n < String.length x).
Proof.
  unfold read_items. destruct (separator o fl) as [d|].
  - exists (if Ascii.eqb d "a" then "b"%char else "a"%char). set (a := if Ascii.eqb d "a" then _ else _).
    assert (L : letter a) by (unfold a, letter; destruct (Ascii.eqb d "a"); auto).
    assert (N : a <> d) by (unfold a; clear; destruct (Ascii.eqb_spec d "a") as [E|N]; [rewrite E; discriminate|congruence]).
    split; [exact L|]. intros rest _.
    assert (H : exists r rs, records d (repeated a (S n) +++ String newline rest) = r :: rs /\ n < String.length r).
    { induction n as [|m IH].
      - cbn [repeated String.append records]. rewrite (proj2 (Ascii.eqb_neq a d) N).
        destruct (if Ascii.eqb newline d then _ else _) as [|r rs]; [exists (String a ""), []|exists (String a r), rs]; cbn; split; auto; lia.
      - destruct IH as (r & rs & E & Q). change (repeated a (S (S m)) +++ String newline rest) with (String a (repeated a (S m) +++ String newline rest)).
        cbn [records]. rewrite (proj2 (Ascii.eqb_neq a d) N), E. exists (String a r), rs. cbn. split; [reflexivity|lia]. }
    destruct H as (r & rs & E & Q). rewrite E. exists r, true, (map (fun r => (r, true)) rs). now split.
  - exists "a"%char. split; [now left|]. intros rest (l & E).
    assert (F : read (negb (given fl ["-I"])) None Outside newline (repeated "a" (S n) +++ String newline rest)
      = read (negb (given fl ["-I"])) (Some (String "a" "")) Outside "a" (repeated "a" n +++ String newline rest)).
    { cbn [repeated String.append read]. change (white_char "a") with false. change (blank_char "a") with false.
      rewrite !andb_false_r. reflexivity. }
    rewrite F, read_letters by now left. rewrite E. cbn [emit String.append]. do 3 eexists. split; [reflexivity|]. cbn. rewrite repeated_length. lia.
Qed.

(** Whatever the limit is: if something is printed for some input, the concatenation is wrong. *)
Theorem C60_limited_wrong : forall inv p c v B o dir s flags limit ops y l out,
  cmd_name inv = "xargs" -> offered shipped_dir inv p -> invocation_of inv c -> reads_one c v -> tight c ->
  v_flags c = flags ++ [FFlag "-s"] -> v_ops c = PArg limit :: ops ->
  let fl := map (wflag_of c s) flags in let ws := map (word_of c s) ops in
  known xargs_names fl -> one_kind fl -> given fl ["--help"; "--version"] = false -> is_command ws ->
  too_long_first o B -> is_cat B ->
  read_items o fl y = Some l -> has_char nul y = false ->
  (forall seed, B seed "xargs" (fl ++ [WFlag "-s"]) (WText limit :: ws) [y] = out) -> out <> "" ->
  parallel_wrong B dir p c v (fun n => n <> 0) no_null.
Proof.
  intros inv p c v B o dir s flags limit ops y l out C OF IN R T VF VO fl ws K OK H IC TB CB RY NY PY NE.
  assert (A := concat_of inv p C OF). destruct IN as (CN & _).
  assert (RUN : forall sd x, run B sd c (put v x s) = B sd "xargs" (fl ++ [WFlag "-s"]) (WText limit :: ws) [x]).
  { intros sd x. rewrite (put_run B _ c v s _ R), CN, C, VF, VO, map_app. reflexivity. }
  destruct (first_letters o fl (number limit)) as (a & L & FY).
  set (x := repeated a (S (number limit)) +++ String newline "").
  assert (NA : a <> nul) by (destruct L as [-> | ->]; discriminate).
  assert (NN : has_char nul x = false) by (unfold x; now rewrite has_char_app, (repeated_char a nul _ NA)).
  assert (XY : x +++ y = repeated a (S (number limit)) +++ String newline y) by (unfold x; now rewrite append_assoc).
  assert (NXY : has_char nul (x +++ y) = false) by now rewrite has_char_app, NN, NY.
  assert (RX : forall sd, run B sd c (put v x s) = "").
  { intros sd. rewrite RUN. destruct (FY "") as (x1 & e1 & l1 & R1 & Q1); [unfold read_items; destruct (separator o fl); eexists; reflexivity|]. now apply (TB sd fl limit ws x x1 e1 l1). }
  assert (RXY : forall sd, run B sd c (put v (x +++ y) s) = "").
  { intros sd. rewrite RUN. destruct (FY y) as (x1 & e1 & l1 & R1 & Q1); [eauto|]. rewrite <- XY in R1. now apply (TB sd fl limit ws (x +++ y) x1 e1 l1). }
  apply (C68_concat_wrong shipped_dir inv p c v B no_null dir s x y); auto.
  - right. now exists (repeated a (S (number limit))).
  - intros sd. now rewrite !RX.
  - intros sd. now rewrite !RUN, !PY.
  - intros sd. rewrite RXY, RX, RUN, PY. cbn. congruence.
Qed.
Print Assumptions C60_limited_wrong.
(** xargs -r -n 1 would be safe; with -s 20 it is not. *)
Definition system_size : behaviour := fun seed cmd fl ops inputs =>
  if String.eqb cmd "cat" then joined inputs else
  let fl := removelast fl in
  match ops, read_items echo_world fl (joined inputs) with
  | WText limit :: ws, Some ((x, e) :: l) => if Nat.ltb (number limit) (String.length x) then "" else xargs_prints echo_world fl ws ((x, e) :: l)
  | _, _ => ""
  end.
Example C60_limited_case : exists inv, parse shipped_dir "xargs -r -n 1 -s 20 echo" = Ok inv /\
  let c := filter_civ "xargs" [FFlag "-r"; FOptIO "-n" (PArg "1"); FFlag "-s"] [PArg "20"; PArg "echo"] in
  invocation_of inv c /\ too_long_first echo_world system_size /\ forall p, In p (stateless SpecPara.concat) ->
    offered shipped_dir inv p /\ parallel_wrong system_size shipped_dir p c 1 (fun n => n <> 0) no_null.
Proof.
  eexists. split; [vm_compute; reflexivity|]. cbv zeta. split; [split; reflexivity|].
  assert (TB : too_long_first echo_world system_size).
  { intros seed fl limit ops input x e l _ _ _ _ E _ Q. unfold system_size. cbn [String.eqb Ascii.eqb Bool.eqb joined fold_right].
    rewrite append_nil, removelast_last, E. now rewrite (proj2 (Nat.ltb_lt _ _) Q). }
  split; [exact TB|]. intros p I.
  assert (OF : offered shipped_dir (mkInv "xargs" [Flag "-r"; Option_ "-n" "1"; Flag "-s"] ["20"; "echo"]) p) by now apply xargs_offered.
  split; [exact OF|].
  apply (C60_limited_wrong (mkInv "xargs" [Flag "-r"; Option_ "-n" "1"; Flag "-s"] ["20"; "echo"]) p _ 1%Z _ echo_world shipped_dir (fun _ => "")
    [FFlag "-r"; FOptIO "-n" (PArg "1")] "20" [PArg "echo"] (unlines ["b"]) [("b", true)] (unlines ["b"]));
    try reflexivity; try exact OF; try exact TB; try (now apply filter_civ_reads); try (now apply filter_civ_tight).
  - split; reflexivity.
  - apply Forall_forall; cbn; intuition (subst; cbn; auto 14).
  - apply plain_one_kind; reflexivity.
  - exists "echo", []. split; [reflexivity|]. discriminate.
  - intros seed ops inputs _. reflexivity.
  - discriminate.
Qed.

(** ** The slot variable *)
Definition starts_command (ops : list word) : bool :=
  match ops with WText (String a _) :: _ => negb (Ascii.eqb a "-") | WText "" :: _ => true | _ => false end.
Lemma starts_command_spec ops : starts_command ops = true <-> is_command ops.
Proof.
  split.
  - destruct ops as [|x ops]; [discriminate|]. destruct x as [|w| | |]; try discriminate. intros H. exists w, ops. split; [reflexivity|]. intros s ->. discriminate.
  - intros (w & ops' & -> & N). destruct w as [|a w]; [reflexivity|]. cbn. destruct (Ascii.eqb_spec a "-") as [E|D]; [|reflexivity]. subst. now destruct (N w).
Qed.
(** The same invocation without the option *)
Definition without_slot (c : civ) (flags : list flag_el) (ops : list pyval) : civ :=
  mkCiv (v_cmd c) flags ops (v_in c) (v_out c) (v_acc c).
Section Slot.
Variables (c : civ) (flags : list flag_el) (name : string) (ops : list pyval).
Hypotheses (VF : v_flags c = flags ++ [FFlag "--process-slot-var"]) (VO : v_ops c = PArg name :: ops).
Let c' := without_slot c flags ops.
Lemma slot_args : option_args (v_flags c) = option_args flags.
Proof. rewrite VF. unfold option_args. rewrite flat_map_app. apply app_nil_r. Qed.
Lemma slot_vars : vars c' = vars c.
Proof. unfold vars, slots. rewrite slot_args, VO. cbn [v_flags v_ops v_in v_out c' without_slot]. now rewrite !flat_map_app. Qed.
Lemma slot_tight : tight c -> tight c'.
Proof. unfold tight, consistent. now rewrite slot_vars. Qed.
Lemma slot_reads v : reads_one c v -> reads_one c' v.
Proof.
  unfold reads_one, consistent. rewrite slot_vars, slot_args. intros (A & B & C & D & E). repeat split; try apply A; auto.
  intros n a I. apply (E n a). rewrite VF. apply in_or_app. now left.
Qed.
Lemma slot_run B B' sd s : (forall inputs, B sd (v_cmd c) (map (wflag_of c s) flags ++ [WFlag "--process-slot-var"]) (WText name :: map (word_of c s) ops) inputs =
    B' sd (v_cmd c) (map (wflag_of c s) flags) (map (word_of c s) ops) inputs) -> run B sd c s = run B' sd c' s.
Proof.
  intros H. unfold run, streams. rewrite slot_vars, VF, VO, map_app. apply H.
Qed.
End Slot.

(** Exactly the uses of xargs that are safe without the variable are safe with it. *)
Theorem C60_slot_iff : forall inv p c v o dir flags name ops w ops',
  cmd_name inv = "xargs" -> offered shipped_dir inv p -> invocation_of inv c -> reads_one c v -> tight c ->
  v_flags c = flags ++ [FFlag "--process-slot-var"] -> v_ops c = PArg name :: ops ->
  ops = PArg w :: ops' -> (forall s, w <> String "-" s) ->
  Forall (fun f => In (fe_name f) xargs_names) flags ->
  (forall s, one_kind (map (wflag_of c s) flags)) ->
  (forall B env, delimiter (env name) = delimiter o -> slot_world env B -> is_cat B -> parallel_ok B dir p c v (fun n => n <> 0) tidy_lines) <->
  forall s, xargs_safe o (map (wflag_of c s) flags).
Proof.
  intros inv p c v o dir flags name ops w ops' C OF IN R T VF VO EO W F K.
  assert (A := concat_of inv p C OF).
  set (c' := without_slot c flags ops). set (inv' := mkInv "xargs" (map (fun f => Flag (fe_name f)) flags) []).
  assert (CN : v_cmd c = "xargs") by (destruct IN as (-> & _); exact C).
  assert (OF' : offered shipped_dir inv' p) by (apply xargs_offered; [reflexivity|]; eapply stateless_of; eauto; rewrite C; cbn; auto).
  assert (IN' : invocation_of inv' c') by (split; [exact CN|]; cbn; rewrite map_map; reflexivity).
  assert (R' : reads_one c' v) by (eapply slot_reads; eauto). assert (T' : tight c') by (eapply slot_tight; eauto).
  assert (F' : Forall (fun fo => In (fo_name fo) xargs_names) (flag_option_list inv')) by (cbn; rewrite Forall_map; exact F).
  assert (K' : forall s, one_kind (map (wflag_of c' s) (v_flags c'))) by exact K.
  assert (WF : forall s f, wflag_of c' s f = wflag_of c s f) by reflexivity.
  assert (WS : forall s, is_command (map (word_of c s) ops)) by (intros s; rewrite EO; exists w, (map (word_of c s) ops'); now split).
  assert (MOVE : forall B B', is_cat B -> is_cat B' -> (forall sd s, run B sd c s = run B' sd c' s) ->
    parallel_ok B dir p c v (fun n => n <> 0) tidy_lines <-> parallel_ok B' dir p c' v (fun n => n <> 0) tidy_lines).
  { intros B B' CB CB' E. rewrite (C68_concat_iff shipped_dir inv p c v B tidy_lines dir), (C68_concat_iff shipped_dir inv' p c' v B' tidy_lines dir) by (auto using tidy_closed).
    unfold piecewise. split; intros H s seed seed1 seed2 a b; [rewrite <- !E|rewrite !E]; apply H. }
  assert (FULL := C60_xargs_full_iff inv' p c' v o dir eq_refl OF' F' IN' R' T' K').
  split.
  - intros H. apply FULL. intros B' o' D XB' CB'.
    set (B := fun (seed : nat) (cmd : string) fl (ws : list word) (inputs : list string) =>
      if String.eqb cmd "xargs" then B' seed "xargs" (removelast fl) (tl ws) inputs else B' seed cmd fl ws inputs).
    assert (CB : is_cat B) by (intros seed fl inputs Q; unfold B; cbn [String.eqb Ascii.eqb Bool.eqb]; now apply CB').
    apply (MOVE B B' CB CB').
    + intros sd s. eapply slot_run; eauto. intros inputs. unfold B. rewrite CN. cbn [String.eqb Ascii.eqb Bool.eqb tl]. now rewrite removelast_last.
    + apply (H B (fun _ => o')); [exact D| |exact CB]. intros seed fl n ws input l KN OK _ E N. unfold B. cbn [String.eqb Ascii.eqb Bool.eqb tl]. rewrite removelast_last. now apply XB'.
  - intros S B env D SB CB.
    set (B' := fun (seed : nat) (cmd : string) fl (ws : list word) (inputs : list string) =>
      if String.eqb cmd "xargs" then
        if starts_command ws then B seed "xargs" (fl ++ [WFlag "--process-slot-var"]) (WText name :: ws) inputs
        else match read_items (env name) fl (joined inputs) with Some l => xargs_prints (env name) fl ws l | None => "" end
      else B seed cmd fl ws inputs).
    assert (CB' : is_cat B') by (intros seed fl inputs Q; unfold B'; cbn [String.eqb Ascii.eqb Bool.eqb]; now apply CB).
    apply (MOVE B B' CB CB').
    + intros sd s. eapply slot_run; eauto. intros inputs. unfold B'. rewrite CN. cbn [String.eqb Ascii.eqb Bool.eqb].
      now rewrite (proj2 (starts_command_spec _) (WS s)).
    + apply (proj2 FULL S B' (env name) D); [|exact CB']. intros seed fl ws input l KN OK E N. unfold B'. cbn [String.eqb Ascii.eqb Bool.eqb].
      destruct (starts_command ws) eqn:Q; [apply starts_command_spec in Q; now apply SB|]. cbn [joined fold_right]. now rewrite append_nil, E.
Qed.
Print Assumptions C60_slot_iff.
(** xargs -r -n 1 is safe with a slot variable, xargs -n 2 is not. *)
Example C60_slot_case : exists inv inv2, parse shipped_dir "xargs -r -n 1 --process-slot-var SLOT echo" = Ok inv /\
  parse shipped_dir "xargs -r -n 2 --process-slot-var SLOT echo" = Ok inv2 /\
  let c n := filter_civ "xargs" [FFlag "-r"; FOptIO "-n" (PArg n); FFlag "--process-slot-var"] [PArg "SLOT"; PArg "echo"] in
  invocation_of inv (c "1") /\ invocation_of inv2 (c "2") /\ forall p, In p (stateless SpecPara.concat) ->
    offered shipped_dir inv p /\ offered shipped_dir inv2 p /\
    (forall B env, slot_world env B -> is_cat B -> parallel_ok B shipped_dir p (c "1") 1 (fun n => n <> 0) tidy_lines) /\
    ~ (forall B env, slot_world env B -> is_cat B -> parallel_ok B shipped_dir p (c "2") 1 (fun n => n <> 0) tidy_lines).
Proof.
  do 2 eexists. split; [vm_compute; reflexivity|]. split; [vm_compute; reflexivity|]. cbv zeta. split; [split; reflexivity|]. split; [split; reflexivity|]. intros p I.
  assert (OF : forall n, offered shipped_dir (mkInv "xargs" [Flag "-r"; Option_ "-n" n; Flag "--process-slot-var"] ["SLOT"; "echo"]) p) by (intros n; now apply xargs_offered).
  split; [apply OF|]. split; [apply OF|].
  assert (IFF : forall n o, (forall B env, delimiter (env "SLOT") = delimiter o -> slot_world env B -> is_cat B ->
    parallel_ok B shipped_dir p (filter_civ "xargs" [FFlag "-r"; FOptIO "-n" (PArg n); FFlag "--process-slot-var"] [PArg "SLOT"; PArg "echo"]) 1 (fun n => n <> 0) tidy_lines) <->
    forall s, xargs_safe o (map (wflag_of (filter_civ "xargs" [FFlag "-r"; FOptIO "-n" (PArg n); FFlag "--process-slot-var"] [PArg "SLOT"; PArg "echo"]) s) [FFlag "-r"; FOptIO "-n" (PArg n)])).
  { intros n o. apply (C60_slot_iff (mkInv "xargs" [Flag "-r"; Option_ "-n" n; Flag "--process-slot-var"] ["SLOT"; "echo"]) p _ 1%Z o shipped_dir
      [FFlag "-r"; FOptIO "-n" (PArg n)] "SLOT" [PArg "echo"] "echo" []); try reflexivity; try apply OF; try (now apply filter_civ_reads); try (now apply filter_civ_tight).
    - split; reflexivity.
    - discriminate.
    - apply Forall_forall; cbn; intuition (subst; cbn; auto 14).
    - intros s. apply plain_one_kind; reflexivity. }
  split.
  - intros B env SB CB. refine (proj2 (IFF "1" (env "SLOT")) _ B env eq_refl SB CB). intros s. split; [reflexivity|]. right. split; [now left|]. right. split; [reflexivity|]. now left.
  - intros H. assert (S := proj1 (IFF "2" echo_world) (fun B env _ => H B env) (fun _ => "")).
    destruct S as (_ & [S|(_ & [S|(_ & [S|S])])]); discriminate S.
Qed.
