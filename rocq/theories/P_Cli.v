(** * Theorems about the command line tool (C49, C56) *)
Require Import Verif.PyBase Verif.JsonData Verif.Parser Verif.Access Verif.IOInfo Verif.IOGen Verif.ParaTypes Verif.ParaGen Verif.ShippedData
  Verif.SpecIO Verif.SpecPara Verif.ParaFacts Verif.ParaProps Verif.Cli Verif.SpecCli Verif.CliFacts.
From Coq Require Import Lia.

(** ** C49: existing files *)
(** Refuted: whatever is in a readable and writable file, it is replaced whenever the command parses ... *)
Theorem C49_overwrites_refuted : forall render dir script f p cmd inv w old,
  parse dir cmd = Ok inv -> beside script f p -> files w p = File true true old ->
  exists r, reports dir cmd r /\
    files (fst (cli render dir script (Some f) cmd w)) p = File true true (render r) /\
    snd (cli render dir script (Some f) cmd w) = Ok tt.
Proof.
  intros render dir script f p cmd inv w old P B E. pose proof (make_report_spec dir cmd) as M. rewrite P in M.
  destruct M as (r & M & R). exists r. split; [exact R|]. pose proof (cli_published render dir script (Some f) cmd w r M) as C.
  apply beside_iff in B. destruct (cli render dir script (Some f) cmd w) as [w' o]. cbn.
  inversion C as [|f' p' B' N|f' p' old' fs B' E' S O|f' p' old' B' E']; subst; apply beside_iff in B'; subst p'.
  - exfalso. now apply (N true old).
  - auto.
  - congruence.
Qed.
Print Assumptions C49_overwrites_refuted.
Example C49_case :
  let w := mkWorld (fun q => if String.eqb q "/opt/notes" then File true true "precious" else Absent true) [] in
  files (fst (cli (fun _ => "report") shipped_dir "/opt/annotation_cli.py" (Some "notes") "cat a" w)) "/opt/notes"
  = File true true "report" /\ beside "/opt/annotation_cli.py" "notes" "/opt/notes".
Proof. split; [vm_compute; reflexivity|]. apply beside_iff. vm_compute. reflexivity. Qed.
(** ... and a target that does not exist is not created, although the user is told that it exists. *)
Theorem C49_never_creates_refuted : forall render dir script f p cmd w b,
  beside script f p -> files w p = Absent b ->
  files (fst (cli render dir script (Some f) cmd w)) p = Absent b /\
  In told (printed (fst (cli render dir script (Some f) cmd w))).
Proof.
  intros render dir script f p cmd w b B E. apply beside_iff in B. subst p. unfold cli, can_be_read, open_read. rewrite E. cbn.
  destruct (make_report dir cmd); cbn; (split; [exact E|]); repeat (apply in_or_app; (right; now left) || left); apply in_or_app; right; now left.
Qed.
Print Assumptions C49_never_creates_refuted.
(** What holds: the only entry that can change is the target, and only if it is a readable and writable file
    and the command parses. *)
Theorem C49_nothing_else_partial : forall render dir script target cmd w q,
  files (fst (cli render dir script target cmd w)) q <> files w q ->
  exists f old inv, target = Some f /\ beside script f q /\ files w q = File true true old /\ parse dir cmd = Ok inv.
Proof.
  intros render dir script target cmd w q H. pose proof (make_report_spec dir cmd) as M. destruct (parse dir cmd) as [inv|e] eqn:P.
  - destruct M as (r & M & R). pose proof (cli_published render dir script target cmd w r M) as C.
    destruct (cli render dir script target cmd w) as [w' o]. cbn in H.
    inversion C as [|f p B N|f p old fs B E S O|f p old B E]; subst; cbn in H; try congruence.
    destruct (String.string_dec q p) as [->|N]; [|now rewrite (O q N) in H]. exists f, old, inv. auto.
  - pose proof (cli_no_report render dir script target cmd w e M) as C. destruct (cli render dir script target cmd w). cbn in H.
    destruct C. congruence.
Qed.
Print Assumptions C49_nothing_else_partial.
Example C49_nothing_else_case :
  let w := mkWorld (fun q => if String.eqb q "/opt/notes" then File true true "precious" else Absent true) [] in
  files (fst (cli (fun _ => "report") shipped_dir "/opt/annotation_cli.py" (Some "notes") "cat a" w)) "/opt/notes"
  <> files w "/opt/notes".
Proof. vm_compute. discriminate. Qed.

(** ** C56: what is reported, and where *)
Theorem C56_published : forall render dir script target cmd w w' o,
  cli render dir script target cmd w = (w', o) ->
  match parse dir cmd with
  | Raise e => files w' = files w /\ o = Raise e /\ exists l, warned script w target l /\ printed w' = printed w ++ l
  | Ok _ => exists r, reports dir cmd r /\ published render script w r target w' o
  end.
Proof.
  intros render dir script target cmd w w' o H. pose proof (make_report_spec dir cmd) as M. destruct (parse dir cmd) as [inv|e] eqn:P.
  - destruct M as (r & M & R). exists r. split; [exact R|]. pose proof (cli_published render dir script target cmd w r M) as C.
    now rewrite H in C.
  - pose proof (cli_no_report render dir script target cmd w e M) as C. now rewrite H in C.
Qed.
Print Assumptions C56_published.
(** There is one report only on a command, so the theorem above determines what is published. *)
Theorem C56_report_unique : forall dir cmd r r', reports dir cmd r -> reports dir cmd r' -> r = r'.
Proof.
  intros dir cmd [c i s p] [c' i' s' p']. unfold reports. cbn. intros (-> & P & S & (a & A & C & V)) (-> & P' & S' & (a' & A' & C' & V')).
  rewrite P in P'. injection P' as <-. f_equal.
  - inversion S as [N|x W O|x W O]; inversion S' as [N'|x' W' O'|x' W' O']; subst; try reflexivity;
      try (exfalso; now apply (N _ W')); try (exfalso; now apply (N' _ W));
      destruct W as (j & G & Q), W' as (j' & G' & Q'); rewrite G in G'; injection G' as <-; rewrite Q in Q'; injection Q' as <-;
      congruence || (exfalso; tauto).
  - rewrite annotated_iff in A, A'. rewrite A in A'. subst a'. destruct p, p'. cbn in *. congruence.
Qed.
Print Assumptions C56_report_unique.
(** The tool fails only if the command does not parse or the target cannot be written. *)
Theorem C56_raises : forall render dir script target cmd w e,
  snd (cli render dir script target cmd w) = Raise e <->
  parse dir cmd = Raise e \/
  (exists f p old inv, parse dir cmd = Ok inv /\ target = Some f /\ beside script f p /\
     files w p = File true false old /\ e = IOError_).
Proof.
  intros render dir script target cmd w e. pose proof (make_report_spec dir cmd) as M. destruct (parse dir cmd) as [inv|e'] eqn:P.
  - destruct M as (r & M & R). pose proof (cli_published render dir script target cmd w r M) as C.
    destruct (cli render dir script target cmd w) as [w1 o]. cbn. split.
    + intros ->. right. inversion C; subst. do 4 eexists. eauto 8.
    + intros [?|(f & p & old & inv' & _ & -> & B & E & ->)]; [discriminate|]. apply beside_iff in B.
      inversion C as [|f' p' B' N|f' p' old' fs B' E' S O|f' p' old' B' E']; subst; apply beside_iff in B'; subst p'.
      * exfalso. now apply (N false old).
      * congruence.
      * reflexivity.
  - pose proof (cli_no_report render dir script target cmd w e' M) as C. destruct (cli render dir script target cmd w) as [w1 o]. cbn.
    destruct C as (_ & -> & _). split; intros Q; [left; congruence|]. destruct Q as [Q|(f & p & old & inv1 & Q & _)]; congruence.
Qed.
Print Assumptions C56_raises.
(** The help text says that the target is relative to the place of the call; an absolute target shows that it is not:
    a script in some directory never uses the target as given. *)
Theorem C56_target_refuted : forall script f p, has_slash script = true -> beside script f p -> p <> f.
Proof.
  intros script f p S B E. subst p. apply beside_iff in B. destruct (split_slash _ S) as (d & b & -> & N).
  rewrite (prefix_dir _ _ N) in B. apply (f_equal String.length) in B. rewrite !app_length_s in B. cbn in B. lia.
Qed.
Print Assumptions C56_target_refuted.
Theorem C56_target_unique : forall script f p p', beside script f p -> beside script f p' -> p = p'.
Proof. intros script f p p' A B. apply beside_iff in A, B. congruence. Qed.
Print Assumptions C56_target_unique.
Example C56_case : exists r,
  cli (fun _ => "text") shipped_dir "/opt/annotation_cli.py" None "grep -c x f" (mkWorld (fun _ => Absent true) []) =
  (mkWorld (fun _ => Absent true) ["text"], Ok tt) /\ reports shipped_dir "grep -c x f" r.
Proof.
  pose proof (make_report_spec shipped_dir "grep -c x f") as M. vm_compute in M.
  destruct M as (r & M & R). exists r. split; [vm_compute; reflexivity|exact R].
Qed.
Example C56_case_absolute : beside "/opt/annotation_cli.py" "/tmp/x" "/opt//tmp/x".
Proof. apply beside_iff. vm_compute. reflexivity. Qed.
