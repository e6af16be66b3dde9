(** * Theorems about the words given to the command line tool (C83) *)
From Coq Require Import Lia.
Require Import Verif.PyBase Verif.JsonData Verif.ShippedData Verif.Cli Verif.CliFacts Verif.Argparse Verif.SpecArgparse Verif.ArgparseFacts.

(** Exactly when the words are accepted, and what they say *)
Theorem C83_accepted_iff : forall argv c f,
  parse_args argv = Done (value_of c, option_map value_of f) <->
  exists ss, settings argv ss /\ says ss Command (Some c) /\ says ss Destination f.
Proof.
  intros argv c f. unfold parse_args.
  assert (R : forall k : namespace -> outcome (value * option value), obind (classify argv) (fun l => obind (consume l (mkNamespace None None [])) k) = obind (run argv (mkNamespace None None [])) k)
    by (intros k; unfold run; now destruct (classify argv)).
  rewrite R. split.
  - destruct (run argv _) as [ns|n] eqn:E; [|discriminate]. cbn [obind]. destruct (ns_command ns) as [v|] eqn:V; [|discriminate]. destruct (ns_extras ns) eqn:X; [|discriminate].
    intros [= -> S]. destruct (run_settings _ _ _ E X) as (ss & T & ->). exists ss. split; [exact T|].
    destruct (says_ex ss Command) as (x & Hx), (says_ex ss Destination) as (y & Hy). rewrite (says_put ss _ x y Hx Hy) in V, S. cbn in V, S.
    destruct x as [x|]; [|discriminate V]. injection V as V. assert (x = c) as -> by (destruct x, c; cbn in V; congruence).
    assert (y = f) as -> by (destruct y as [[]|], f as [[]|]; cbn in S; congruence). auto.
  - intros (ss & T & C & F). rewrite (settings_run _ _ T). cbn [obind]. rewrite (says_put ss _ _ _ C F). cbn. now destruct f as [[]|].
Qed.
Print Assumptions C83_accepted_iff.

(** Otherwise the tool ends with status 0 after printing its help, or with status 2 *)
Lemma parse_run argv k : parse_args argv = Exit k ->
  run argv (mkNamespace None None []) = Exit k \/ (k = 2 /\ exists ns, run argv (mkNamespace None None []) = Done ns).
Proof.
  unfold parse_args, run. destruct (classify argv) as [l|n]; cbn [obind]; [|intros [= ->]; now left]. destruct (consume l _) as [ns|n]; cbn [obind]; [|intros [= ->]; now left].
  destruct (ns_command ns); [|intros [= <-]; right; split; [reflexivity|now exists ns]]. destruct (ns_extras ns); [discriminate|]. intros [= <-]. right. split; [reflexivity|now exists ns].
Qed.
Lemma run_parse argv k : run argv (mkNamespace None None []) = Exit k -> parse_args argv = Exit k.
Proof. unfold parse_args, run. destruct (classify argv) as [l|n]; cbn [obind]; [|now intros [= ->]]. intros ->. reflexivity. Qed.
Lemma passed_ambiguous w ws : ambiguous ws -> w <> "--" -> ambiguous (w :: ws).
Proof. intros (a & r & b & -> & N) W. exists (w :: a), r, b. split; [reflexivity|]. intros [E|I]; [congruence|contradiction]. Qed.
Lemma passed_run pre : passed pre -> forall rest ns, (forall ns', run rest ns' = Exit 0) -> run (pre ++ rest) ns = Exit 0.
Proof.
  induction 1 as [|w n v ws A _ IH|w n v ws A P _ IH|w ws P _ IH|w ws U _ IH]; intros rest ns R; cbn [app]; [apply R|..].
  - destruct (assigned_word _ _ v A) as (o & E). rewrite (run_assigned _ _ _ _ _ _ (assigned_no_dash _ _ v A) E). now apply IH.
  - destruct (set_word _ _ A) as (o & E). rewrite (run_set _ _ _ _ _ _ (abbreviates_no_dash _ _ A) E P). now apply IH.
  - apply plain_word in P as (N & E). rewrite (run_extra _ _ _ _ N E (or_introl eq_refl)). now apply IH.
  - apply unknown_word in U as (N & E). rewrite (run_extra _ _ _ _ N E (or_intror (ex_intro _ w (ex_intro _ None eq_refl)))). now apply IH.
Qed.
Lemma passed_no_dash pre : passed pre -> ~ In "--" pre.
Proof.
  induction 1 as [|w n v ws A _ IH|w n v ws A P _ IH|w ws P _ IH|w ws U _ IH]; [auto|..].
  - intros [E|I]; [exact (assigned_no_dash _ _ v A E)|auto].
  - intros [E|[E|I]]; [exact (abbreviates_no_dash _ _ A E)|subst; exact (P dash_like)|auto].
  - intros [E|I]; [subst; exact (P dash_like)|auto].
  - intros [E|I]; [apply unknown_word in U as (N & _); contradiction|auto].
Qed.
Theorem C83_help_iff : forall argv, parse_args argv = Exit 0 <-> asks_for_help argv.
Proof.
  intros argv. split.
  - intros P. apply parse_run in P as [R|(E & _)]; [|discriminate].
    split; [intros A; rewrite (run_ambiguous _ _ A) in R; discriminate|]. revert R. generalize (mkNamespace None None []).
    remember (length argv) as m eqn:L. assert (L' : length argv <= m) by lia. clear L. revert argv L'. induction m as [|m IH]; intros argv L ns R.
    { destruct argv; [discriminate|cbn in L; lia]. }
    pose proof (steps argv ns) as S. rewrite R in S.
    inversion S as [|ws E1 E2|w ws V E1 E2|w ws V E1 E2|w n v ws V E1 E2|w n v ws V Q E1 E2| | |w ws V A E1|]; subst.
    + cbn in L. destruct (IH ws ltac:(lia) _ E2) as (pre & h & post & -> & P & H). exists (w :: pre), h, post. split; [reflexivity|]. split; [now apply pass_plain|exact H].
    + cbn in L. destruct (IH ws ltac:(lia) _ E2) as (pre & h & post & -> & P & H). exists (w :: pre), h, post. split; [reflexivity|]. split; [now apply pass_unknown|exact H].
    + cbn in L. destruct (IH ws ltac:(lia) _ E2) as (pre & h & post & -> & P & H). exists ((w +++ "=" +++ v) :: pre), h, post. split; [reflexivity|]. split; [now apply (pass_joined w n)|exact H].
    + cbn in L. destruct (IH ws ltac:(lia) _ E2) as (pre & h & post & -> & P & H). exists (w :: v :: pre), h, post. split; [reflexivity|]. split; [now apply (pass_apart w n)|exact H].
    + exists [], w, ws. split; [reflexivity|]. split; [constructor|exact V].
  - intros (A & pre & h & post & -> & P & H). apply run_parse. apply passed_run; [exact P|]. intros ns'. apply help_words in H as (N & o & e & E & S).
    rewrite (run_help _ _ _ _ _ N E), S. destruct (classify_cases post) as [(_ & B)|(l & -> & _)]; [|reflexivity].
    destruct A. apply passed_no_dash in P. revert P. clear -B N. induction pre as [|x pre IH]; intros P; cbn [app]; [now apply passed_ambiguous|].
    apply passed_ambiguous; [apply IH; intros I; apply P; now right|intros ->; apply P; now left].
Qed.
Print Assumptions C83_help_iff.
Theorem C83_status : forall argv n, parse_args argv = Exit n -> n = 0 \/ n = 2.
Proof.
  intros argv n P. apply parse_run in P as [R|(E & _)]; [|auto]. revert R. generalize (mkNamespace None None []).
  remember (length argv) as m eqn:L. assert (L' : length argv <= m) by lia. clear L. revert argv L'. induction m as [|m IH]; intros argv L ns R.
  { destruct argv; [discriminate|cbn in L; lia]. }
  pose proof (steps argv ns) as S. rewrite R in S. inversion S; subst; auto; cbn in L; eapply IH; try eassumption; lia.
Qed.
Print Assumptions C83_status.

(** The whole tool: it looks at the command that was said last and at the destination that was said last, or does nothing. *)
Theorem C83_tool : forall render dir script argv w w' e, main render dir script argv w = (w', e) ->
  (exists n, e = Exited n /\ w' = w /\ (n = 0 <-> asks_for_help argv) /\ (n = 0 \/ n = 2)) \/
  (exists ss c f r, settings argv ss /\ says ss Command (Some (Some c)) /\
     (says ss Destination (Some (Some f)) /\ cli render dir script (Some f) c w = (w', r) \/
      says ss Destination None /\ cli render dir script None c w = (w', r)) /\ e = Ended r) \/
  (exists ss, settings argv ss /\ (says ss Command (Some None) \/ says ss Destination (Some None)) /\ e = Ended (Raise TypeError) /\ files w' = files w).
Proof.
  intros render dir script argv w w' e. unfold main. destruct (parse_args argv) as [[c f]|n] eqn:P.
  - assert (S : exists c' f', c = value_of c' /\ f = option_map value_of f').
    { exists (match c with Text s => Some s | NoText => None end), (match f with Some (Text s) => Some (Some s) | Some NoText => Some None | None => None end).
      split; [now destruct c|now destruct f as [[]|]]. }
    destruct S as (c' & f' & -> & ->). apply C83_accepted_iff in P as (ss & T & C & F). intros H. right.
    destruct c' as [c|], f' as [[f|]|]; cbn [value_of option_map] in H.
    + left. destruct (cli _ _ _ _ _ _) as [w1 r] eqn:R. injection H as <- <-. exists ss, c, f, r. split; [exact T|]. auto.
    + right. injection H as <- <-. exists ss. split; [exact T|]. auto.
    + left. destruct (cli _ _ _ _ _ _) as [w1 r] eqn:R. injection H as <- <-. exists ss, c, "", r. split; [exact T|]. auto.
    + right. destruct (can_be_read_ok (files w) (script_prefix script +++ f)) as [b E]. rewrite E in H.
      injection H as <- <-. exists ss. repeat split; auto. now destruct b.
    + right. injection H as <- <-. exists ss. split; [exact T|]. auto.
    + right. injection H as <- <-. exists ss. split; [exact T|]. auto.
  - intros [= <- <-]. left. exists n. split; [reflexivity|]. split; [reflexivity|]. split; [|exact (C83_status _ _ P)]. split.
    + intros ->. apply C83_help_iff. exact P.
    + intros H. apply C83_help_iff in H. congruence.
Qed.
Print Assumptions C83_tool.

(** Every command string can be handed over in the word of the option, but for two dashes. *)
Theorem C83_joined : forall render dir script c f w, c <> "--" -> f <> "--" ->
  main render dir script ["--command_invocation=" +++ c] w = (let '(w', r) := cli render dir script None c w in (w', Ended r)) /\
  main render dir script ["--command_invocation=" +++ c; "--save_to=" +++ f] w = (let '(w', r) := cli render dir script (Some f) c w in (w', Ended r)).
Proof.
  intros render dir script c f w NC NF. split.
  - assert (P : parse_args ["--command_invocation=" +++ c] = Done (Text c, None)).
    { unfold parse_args. cbn. unfold get_value. now rewrite (proj2 (String.eqb_neq c "--") NC). }
    unfold main. now rewrite P.
  - assert (P : parse_args ["--command_invocation=" +++ c; "--save_to=" +++ f] = Done (Text c, Some (Text f))).
    { unfold parse_args. cbn. unfold get_value. now rewrite (proj2 (String.eqb_neq c "--") NC), (proj2 (String.eqb_neq f "--") NF). }
    unfold main. now rewrite P.
Qed.
Print Assumptions C83_joined.

(** In a word of its own, exactly the strings that do not look like an option *)
Theorem C83_apart_iff : forall c, parse_args ["--command_invocation"; c] = Done (Text c, None) <-> plain c.
Proof.
  intros c. change (Text c, None) with (value_of (Some c), option_map value_of (@None (option string))). rewrite C83_accepted_iff. split.
  - intros (ss & S & _ & _). inversion S as [|w n v x ws ss' A G T E1 E2|w n v ws ss' A P T E1 E2]; subst; [|exact P].
    destruct A as (s & (_ & q & Q) & ->). cbn in E1. injection E1 as E1.
    assert (H : has "=" "command_invocation") by (exists s, v; now rewrite <- E1). exfalso. revert H. apply split_equals_none. reflexivity.
  - intros P. exists [(Command, Some c)]. split.
    + apply (set_apart "--command_invocation" Command); [|exact P|constructor]. exists "command_invocation". split; [split; [discriminate|now exists ""]|reflexivity].
    + split; [right; now exists (Some c), [], []|]. left. split; [reflexivity|]. intros y [E|[]]. discriminate.
Qed.
Print Assumptions C83_apart_iff.
(** In particular every string that does not begin with a dash *)
Theorem C83_apart_usual : forall c, String.get 0 c <> Some "-"%char -> parse_args ["--command_invocation"; c] = Done (Text c, None).
Proof.
  intros c N. apply C83_apart_iff. intros [r E|s q n I E F|s q n r I E F|s X Y Z T]; subst; cbn in N; congruence.
Qed.
Print Assumptions C83_apart_usual.
(** Refuted for others: two dashes cannot be handed over at all, a command that begins with a dash not in a word of its own. *)
Theorem C83_any_string_refuted :
  (forall argv f, parse_args argv <> Done (Text "--", f)) /\
  parse_args ["--command_invocation"; "-x"] = Exit 2 /\ parse_args ["--command_invocation"; "-hello there"] = Exit 2 /\
  parse_args ["--command_invocation"; "--"; "ls"] = Exit 2 /\
  forall render dir script w, main render dir script ["--command_invocation=--"] w = (w, Ended (Raise TypeError)).
Proof.
  split; [|repeat split; reflexivity]. intros argv f P.
  assert (S : exists f', f = option_map value_of f').
  { exists (match f with Some (Text s) => Some (Some s) | Some NoText => Some None | None => None end). now destruct f as [[]|]. }
  destruct S as (f' & ->). change (Text "--") with (value_of (Some "--")) in P. apply C83_accepted_iff in P as (ss & S & C & _).
  assert (G : forall argv ss, settings argv ss -> forall n, ~ In (n, Some "--") ss).
  { clear. induction 1 as [|w n v x ws ss A G _ IH|w n v ws ss A P _ IH]; intros m; [auto|..].
    - intros [E|I]; [|now apply (IH m)]. injection E as -> ->. inversion G. congruence.
    - intros [E|I]; [|now apply (IH m)]. injection E as -> ->. exact (P dash_like). }
  destruct C as [(C & _)|(y & a & b & [= <-] & -> & _)]; [discriminate|]. apply (G _ _ S Command). apply in_or_app. right. now left.
Qed.
Print Assumptions C83_any_string_refuted.

Example C83_cases :
  parse_args ["--save=out"; "--com"; "grep -v x"; "--command_invocation=-x y"] = Done (Text "-x y", Some (Text "out")) /\
  parse_args ["--command_invocation"; "-x y"] = Done (Text "-x y", None) /\
  parse_args ["--command_invocation"; "-4.5"] = Done (Text "-4.5", None) /\
  parse_args ["--c=ls"; "x"] = Exit 2 /\ parse_args ["-z"; "--c"; "ls"; "-hh"; "--nonsense"] = Exit 0 /\
  parse_args ["-h"; "--=x"] = Exit 2 /\ parse_args ["--save_to=x"] = Exit 2 /\ parse_args [] = Exit 2.
Proof. repeat split; reflexivity. Qed.
Example C83_tool_case : asks_for_help ["-z"; "--c"; "ls"; "-hh"] /\
  (exists ss, settings ["--save=out"; "--com"; "grep -v x"] ss /\ says ss Command (Some (Some "grep -v x")) /\ says ss Destination (Some (Some "out"))) /\
  fst (main (fun _ => "report") shipped_dir "/opt/annotation_cli.py" ["--com"; "cat -n f"] (mkWorld (fun _ => Absent true) [])) = mkWorld (fun _ => Absent true) ["report"].
Proof.
  split; [|split].
  - apply C83_help_iff. reflexivity.
  - apply (C83_accepted_iff _ (Some "grep -v x") (Some (Some "out"))). reflexivity.
  - vm_compute. reflexivity.
Qed.
