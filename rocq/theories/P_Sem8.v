(** * Sound parallelization of sed, with most of its commands (C59)
    What sed does is in SpecSem8.v, what plans are in SpecSem.v. *)
From Coq Require Import Lia.
Require Import Verif.PyBase Verif.JsonData Verif.Parser Verif.Access Verif.IOInfo Verif.IOVars
  Verif.Transformers Verif.ParaTypes Verif.ParaGen Verif.MapperAgg Verif.SpecLists Verif.SpecIO Verif.SpecVars Verif.SpecPara
  Verif.ParserFacts Verif.ParaProps Verif.ShippedData Verif.P_Para Verif.SpecSem Verif.SemFacts Verif.SemRun Verif.SemProps Verif.SemSystem
  Verif.P_Sem Verif.SpecSem2 Verif.SemProps2 Verif.P_Sem2 Verif.SpecSem8 Verif.SemProps8.

(** ** What sed prints for the parts is what it prints for the whole *)
(** For scripts that treat every line by itself, with loops or without: sed ends on the whole
    input exactly if it ends on both parts, and then prints what it prints for the parts. *)
Theorem C59_parts : forall o fl sc a b out, by_itself sc -> ends_line a ->
  sed_prints o fl sc (a +++ b) out <-> exists o1 o2, sed_prints o fl sc a o1 /\ sed_prints o fl sc b o2 /\ out = o1 +++ o2.
Proof. exact sed_prints_app. Qed.
Print Assumptions C59_parts.
(** What is printed is determined, and scripts whose branches only go forward always end. *)
Theorem C59_runs : forall o fl sc input,
  (forall w w', sed_prints o fl sc input w -> sed_prints o fl sc input w' -> w = w') /\ (forward sc -> sed_ends o fl sc input).
Proof. intros o fl sc input. split; [apply sed_prints_fun|apply sed_forward_ends]. Qed.
Print Assumptions C59_runs.

(** ** Plans *)
(** Sound for scripts that treat every line by itself, on inputs on which the script ends *)
Theorem C59_full_partial : forall text inv p c v B reads o dir script_text ops sc,
  parse shipped_dir text = Ok inv -> cmd_name inv = "sed" -> offered shipped_dir inv p ->
  invocation_of inv c -> reads_one c v -> v_ops c = PArg script_text :: ops -> reads script_text = Some sc -> by_itself sc ->
  ~ uses_any inv sed_others -> is_sed_full reads o B -> is_cat B ->
  parallel_ok B dir p c v (fun n => n <> 0) (fun x => forall s, sed_ends o (map (wflag_of c s) (v_flags c)) sc x).
Proof. exact full_sound. Qed.
Print Assumptions C59_full_partial.
(** On all inputs if branches only go forward *)
Theorem C59_forward_partial : forall text inv p c v B reads o dir script_text ops sc,
  parse shipped_dir text = Ok inv -> cmd_name inv = "sed" -> offered shipped_dir inv p ->
  invocation_of inv c -> reads_one c v -> v_ops c = PArg script_text :: ops -> reads script_text = Some sc -> by_itself sc -> forward sc ->
  ~ uses_any inv sed_others -> is_sed_full reads o B -> is_cat B ->
  parallel_ok B dir p c v (fun n => n <> 0) (fun _ => True).
Proof.
  intros text inv p c v B reads o dir script_text ops sc PA C OF IN R OPS RS L F U SB CB.
  pose proof (full_sound _ _ _ _ _ _ _ _ dir _ _ _ PA C OF IN R OPS RS L U SB CB) as OK.
  intros s t seed FR AR _ DI. apply OK; auto. intros s'. now apply sed_forward_ends.
Qed.
Print Assumptions C59_forward_partial.

(** ** A system for the examples *)
Definition simple_meaning : sed_meaning := mkSedMeaning
  (fun _ r x => match String.index 0 r x with Some _ => true | None => false end)
  (fun _ r w _ x => replace_first r w x) (fun _ _ x => x) (fun _ x => x +++ "$") (fun n => string_of_list_ascii (repeat "1"%char n))
  (fun f => if String.eqb f "f" then ["-"; "="] else []).
Notation here := (mkSedLine Everywhere false).
Definition known_scripts : list (string * sed_script) :=
  [ (* the block begins with a branch for the other lines *)
    ("/c/{s/a/b/;p}", [mkSedLine (Where (PtMatch "c")) true (ABranch 3); here (ASubst "a" "b" ""); here APrint]);
    ("h;s/a/b/;x;G", [here AHold; here (ASubst "a" "b" ""); here AExchange; here AGetAppend]);
    ("s/a/b/;T;a-", [here (ASubst "a" "b" ""); here (ATestNot 3); here (AAppend "-")]);
    (":a;s/a/b/;ta", [here (ASubst "a" "b" ""); here (ATest 0)]);
    ("x;x", [here AExchange; here AExchange]);
    ("s/a/b/;r f", [here (ASubst "a" "b" ""); here (ARead "f")]);
    ("$r f", [mkSedLine (Where PtLast) false (ARead "f")]);
    ("N;P", [here ANextAppend; here APrintFirst]);
    ("n;s/a/b/", [here ANext; here (ASubst "a" "b" "")]);
    ("/x/,/y/s/a/b/", [mkSedLine (Range (PtMatch "x") (PtMatch "y")) false (ASubst "a" "b" "")]);
    ("2,$s/a/b/", [mkSedLine (Range (PtLine 2) PtLast) false (ASubst "a" "b" "")]);
    ("$!s/a/b/", [mkSedLine (Where PtLast) true (ASubst "a" "b" "")]);
    ("1i-", [mkSedLine (Where (PtLine 1)) false (AInsert "-")]);
    ("$a-", [mkSedLine (Where PtLast) false (AAppend "-")]);
    ("1!G;h;$p", [mkSedLine (Where (PtLine 1)) true AGetAppend; here AHold; mkSedLine (Where PtLast) false APrint]);
    ("H;$!b;x;s/a/b/", [here AHoldAppend; mkSedLine (Where PtLast) true (ABranch 4); here AExchange; here (ASubst "a" "b" "")]);
    ("s/a/b/;T;Q", [here (ASubst "a" "b" ""); here (ATestNot 3); here AQuitSilently])].
Definition forwardb (sc : sed_script) : bool :=
  forallb (fun i => match nth_error sc i with
                    | Some l => match l_action l with ADeleteFirst => false | ABranch n | ATest n | ATestNot n => Nat.ltb i n | _ => true end
                    | None => true
                    end) (seq 0 (length sc)).
Lemma forwardb_forward sc : forwardb sc = true -> forward sc.
Proof.
  intros F i l E. unfold forwardb in F. rewrite forallb_forall in F. assert (L : i < length sc) by (apply nth_error_Some; congruence).
  specialize (F i). rewrite E in F. rewrite in_seq in F. specialize (F ltac:(lia)). split; [intros N; now rewrite N in F|].
  intros n I. cbn in I. destruct I as [I|[I|[I|[]]]]; rewrite <- I in F; now apply Nat.ltb_lt.
Qed.
(** The system knows those without loops. *)
Definition forward_scripts (text : string) : option sed_script :=
  match find (fun x => String.eqb (fst x) text) known_scripts with
  | Some (_, sc) => if forwardb sc then Some sc else None
  | None => None
  end.
Definition run8 (fl : list wflag) (sc : sed_script) (input : string) : string :=
  match starts (is_ended newline input) (sed_begin (lines input)) with
  | None => ""
  | Some st => match sed_run simple_meaning fl sc (is_ended newline input) (S (sed_measure sc st)) st with Some l => render l | None => "" end
  end.
Definition system8 : behaviour := fun seed cmd fl ops inputs =>
  if String.eqb cmd "sed" then
    match ops with
    | WText t :: _ => match forward_scripts t with Some sc => run8 fl sc (joined inputs) | None => "" end
    | _ => ""
    end
  else simple_system seed cmd fl ops inputs.
Lemma system8_cat : is_cat system8.
Proof. intros seed ops inputs _. reflexivity. Qed.
Lemma run8_prints fl sc input : forward sc -> sed_prints simple_meaning fl sc input (run8 fl sc input).
Proof.
  intros F. unfold sed_prints, run8. destruct (starts _ _) as [st|]; [|reflexivity].
  destruct (forward_runs simple_meaning fl sc (is_ended newline input) F (S (sed_measure sc st)) st) as (l & E); [lia|].
  exists (S (sed_measure sc st)), l. now rewrite E.
Qed.
Lemma system8_sed : is_sed_full forward_scripts simple_meaning system8.
Proof.
  intros seed fl t ops input sc out _ _ RS P. unfold system8. cbn [String.eqb Ascii.eqb Bool.eqb joined fold_right]. rewrite RS, append_nil.
  apply (sed_prints_fun simple_meaning fl sc input); [|exact P]. apply run8_prints. apply forwardb_forward. unfold forward_scripts in RS.
  destruct (find _ known_scripts) as [(t', sc')|]; [|discriminate]. destruct (forwardb sc') eqn:F; [|discriminate]. injection RS as <-. exact F.
Qed.

(** ** Examples *)
Definition by_itselfb (sc : sed_script) : bool :=
  forallb (fun l => match l_where l with Everywhere | Where (PtMatch _) => true | _ => false end &&
                    match l_action l with ANext | ANextAppend | ANumber | AQuit | AQuitSilently => false | _ => true end) sc &&
  (forallb (fun l => match l_action l with AHold | AHoldAppend | AExchange => false | _ => true end) sc ||
   forallb (fun l => match l_action l with AGet | AGetAppend | AExchange => false | _ => true end) sc ||
   match sc with mkSedLine Everywhere false AHold :: _ => true | _ => false end).
Lemma by_itselfb_ok sc : by_itselfb sc = true -> by_itself sc.
Proof.
  unfold by_itselfb. rewrite andb_true_iff, !orb_true_iff, !forallb_forall. intros (A & B). split.
  - intros l I. apply A, andb_true_iff in I as (I1 & I2). split.
    + destruct (l_where l) as [|[| |r]|]; try discriminate; [now left|right; now exists r].
    + unfold own_action. intros N. cbn in N. destruct (l_action l); try discriminate; intuition discriminate.
  - destruct B as [[B|B]|B].
    + left. intros l I N. apply B in I. unfold writes_hold in N. cbn in N. destruct (l_action l); try discriminate; intuition discriminate.
    + right; left. intros l I N. apply B in I. unfold reads_hold in N. cbn in N. destruct (l_action l); try discriminate; intuition discriminate.
    + right; right. destruct sc as [|[[| |] [] []] sc]; try discriminate B. exists [], sc. split; [reflexivity|intros l []].
Qed.
(** A loop: the scripts ends on both parts and on the whole. *)
Example C59_parts_case : let sc := [here (ASubst "a" "b" ""); here (ATest 0)] in
  by_itself sc /\ ends_line ("aca" +++ String newline "") /\
  sed_prints simple_meaning [] sc ("aca" +++ String newline "xa") ("bcb" +++ String newline "xb").
Proof.
  split; [now apply by_itselfb_ok|]. split; [right; now exists "aca"|]. cbn -[sed_run sed_prints].
  exists 20. eexists. split; [vm_compute; reflexivity|reflexivity].
Qed.
(** The scripts with the hold space, blocks and branches *)
Definition sed_sound_scripts : list (string * list flag_el * string) :=
  [("sed -n '/c/{s/a/b/;p}'", [FFlag "-n"], "/c/{s/a/b/;p}");
   ("sed 'h;s/a/b/;x;G'", [], "h;s/a/b/;x;G");
   ("sed 's/a/b/;T;a-'", [], "s/a/b/;T;a-");
   ("sed 's/a/b/;r f'", [], "s/a/b/;r f")].
Example C59_full_case : forall text flags t, In (text, flags, t) sed_sound_scripts ->
  exists inv sc, parse shipped_dir text = Ok inv /\ forward_scripts t = Some sc /\ by_itself sc /\
  let c := filter_civ "sed" flags [PArg t] in
  invocation_of inv c /\ reads_one c 1 /\
  forall p, In p (stateless SpecPara.concat) ->
    offered shipped_dir inv p /\ parallel_ok system8 shipped_dir p c 1 (fun n => n <> 0) (fun _ => True).
Proof.
  intros text flags t I. unfold sed_sound_scripts in I. cbn [In] in I.
  repeat (destruct I as [E|I]; [injection E as <- <- <-|]); try destruct I.
  all: match goal with |- context [parse shipped_dir ?t] => destruct (parse shipped_dir t) as [inv|] eqn:P; [|vm_compute in P; discriminate P] end;
    pose proof P as P'; vm_compute in P'; injection P' as <-;
    eexists; eexists; (split; [reflexivity|]); (split; [vm_compute; reflexivity|]); (split; [apply by_itselfb_ok; vm_compute; reflexivity|]); cbv zeta;
    (split; [split; reflexivity|]); (split; [now apply filter_civ_reads|]); intros p I.
  all: match goal with |- offered ?d ?i ?p /\ _ => assert (OF : offered d i p) by (eapply offered_first; [vm_compute; reflexivity|exact I]) end;
    (split; [exact OF|]);
    eapply (C59_forward_partial _ _ p _ 1 system8 forward_scripts simple_meaning shipped_dir _ _ _ P eq_refl OF);
    [split; reflexivity|now apply filter_civ_reads|reflexivity|vm_compute; reflexivity|apply by_itselfb_ok; vm_compute; reflexivity
    |apply forwardb_forward; vm_compute; reflexivity| |exact system8_sed|exact system8_cat].
  all: intros (n & J & U); apply uses_in in U; cbn in J, U; intuition subst; discriminate.
Qed.

(** ** The other scripts *)
(** Command, flags, script, and the two parts of an input for which the plans are wrong *)
Definition sed_wrong_scripts8 : list (string * list flag_el * string * string * string) :=
  [("sed -n 'N;P'", [FFlag "-n"], "N;P", "a
", "b
"); ("sed 'n;s/a/b/'", [], "n;s/a/b/", "a
", "a
"); ("sed /x/,/y/s/a/b/", [], "/x/,/y/s/a/b/", "x
", "a
"); ("sed '2,$s/a/b/'", [], "2,$s/a/b/", "a
", "a
"); ("sed '$!s/a/b/'", [], "$!s/a/b/", "a
", "a
"); ("sed 1i-", [], "1i-", "a
", "a
"); ("sed '$a-'", [], "$a-", "a
", "a
"); ("sed '$r f'", [], "$r f", "a
", "a
"); ("sed -n '1!G;h;$p'", [FFlag "-n"], "1!G;h;$p", "a
", "b
"); ("sed 'H;$!b;x;s/a/b/'", [], "H;$!b;x;s/a/b/", "a
", "a
"); ("sed 's/a/b/;T;Q'", [], "s/a/b/;T;Q", "a
", "c
")].
(** The other commands that look at more than one line: they are offered the concatenation, and
    it is wrong. *)
Theorem C59_full_refuted : forall text flags t first second, In (text, flags, t, first, second) sed_wrong_scripts8 ->
  exists inv sc, parse shipped_dir text = Ok inv /\ forward_scripts t = Some sc /\
  let c := filter_civ "sed" flags [PArg t] in
  invocation_of inv c /\ reads_one c 1 /\
  forall p, In p (stateless SpecPara.concat) ->
    offered shipped_dir inv p /\
    parallel_wrong system8 shipped_dir p c 1 (fun n => n <> 0) (fun input => input = first +++ second).
Proof.
  intros text flags t first second I. unfold sed_wrong_scripts8 in I. cbn [In] in I.
  repeat (destruct I as [E|I]; [injection E as <- <- <- <- <-|]); try destruct I.
  all: eexists; eexists; split; [vm_compute; reflexivity|]; (split; [vm_compute; reflexivity|]); cbv zeta;
    (split; [split; reflexivity|]); (split; [now apply filter_civ_reads|]);
    intros p I; (split; [eapply offered_first; [vm_compute; reflexivity|exact I]|]).
  all: match goal with |- parallel_wrong _ _ _ _ _ _ (fun input => input = ?a +++ ?b) =>
         apply (concat_wrong system8 shipped_dir p _ 1 (fun input => input = a +++ b) (fun _ => "") a b) end;
    [now apply filter_civ_reads|now apply filter_civ_tight|exact I|exact system8_cat|reflexivity| |split; reflexivity|intros sd; vm_compute; discriminate].
  all: (right; exists "a"; reflexivity) || (right; exists "x"; reflexivity).
Qed.
Print Assumptions C59_full_refuted.
Example C59_full_refuted_case : is_sed_full forward_scripts simple_meaning system8 /\ is_cat system8 /\
  system8 0 "sed" [] [WText "n;s/a/b/"] ["a
a
"] = "a
b
".
Proof. split; [exact system8_sed|]. split; [exact system8_cat|]. vm_compute. reflexivity. Qed.
