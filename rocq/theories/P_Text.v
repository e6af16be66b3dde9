(** * Theorems about the texts of objects (C72) *)
Require Import Verif.PyBase Verif.JsonData Verif.Shlex Verif.Parser Verif.Access Verif.IOInfo Verif.IOGen Verif.IOVars Verif.Transformers
  Verif.ParaTypes Verif.ParaGen Verif.ShippedData Verif.SpecShlex Verif.SpecParser Verif.SpecIO Verif.SpecPara Verif.ShlexFacts
  Verif.ParaFacts Verif.ParaProps Verif.Cli Verif.SpecCli Verif.CliFacts Verif.Text Verif.SpecText Verif.TextFacts Verif.ReportFacts
  Verif.ReportFacts2 Verif.P_Cli.

Definition parsed_text (i : invocation) : string := text (shown_invocation i).
Definition io_text (c : invocation_io) : string := text (shown_invocation_io c).

(** ** C72: the texts can be read *)
(** *** Parsed invocations *)
(** If all words but the operands are on one line, two texts are the same exactly if name, flags and options
    are the same, and so are the operands when joined by commas. *)
Theorem C72_parsed_iff : forall i j, inv_one_line i -> inv_one_line j ->
  (parsed_text i = parsed_text j <->
   cmd_name i = cmd_name j /\ flag_option_list i = flag_option_list j /\
   String.concat ", " (operand_list i) = String.concat ", " (operand_list j)).
Proof.
  intros i j I J. unfold parsed_text. split.
  - intros H. apply (f_equal (fun s => s +++ "")) in H. apply inv_prefix in H as (A & B & C); auto. split; [exact A|]. split; [exact B|].
    rewrite sapp_nil_r in C. apply sapp_inv_r in C. exact C.
  - intros (A & B & C). apply inv_same; auto.
Qed.
Print Assumptions C72_parsed_iff.
(** Refuted: the operands can in general not be read. *)
Theorem C72_parsed_refuted : forall name fos a b rest,
  parsed_text (mkInv name fos []) = parsed_text (mkInv name fos [""]) /\
  parsed_text (mkInv name fos (a :: b :: rest)) = parsed_text (mkInv name fos ((a +++ ", " +++ b) :: rest)).
Proof.
  intros name fos a b rest. split; apply inv_same; try reflexivity. cbn [operand_list]. unfold join. cbn [String.concat].
  destruct rest; rewrite ?sapp_assoc; reflexivity.
Qed.
Print Assumptions C72_parsed_refuted.
Example C72_parsed_refuted_case : exists i j,
  parse shipped_dir "cat 'a, b'" = Ok i /\ parse shipped_dir "cat a b" = Ok j /\ i <> j /\ parsed_text i = parsed_text j.
Proof. do 2 eexists. repeat split; try (vm_compute; reflexivity). discriminate. Qed.
(** They can if none is empty or contains a comma. *)
Theorem C72_parsed_partial : forall s s' i j,
  parse shipped_dir s = Ok i -> parse shipped_dir s' = Ok j -> one_line s -> one_line s' ->
  Forall separate (operand_list i) -> Forall separate (operand_list j) ->
  parsed_text i = parsed_text j -> i = j.
Proof.
  intros s s' i j P Q S S' O O' H. apply (parse_one_line _ _ _ shipped_one_line) in P as [P _]; auto.
  apply (parse_one_line _ _ _ shipped_one_line) in Q as [Q _]; auto. apply C72_parsed_iff in H as (A & B & C); auto.
  destruct i as [n f o], j as [n' f' o']. cbn in *. apply join_separate in C; auto. now subst.
Qed.
Print Assumptions C72_parsed_partial.
Example C72_parsed_case : exists i j,
  parse shipped_dir "sort -r -k 2 a b" = Ok i /\ parse shipped_dir "sort -r -k 2 a" = Ok j /\ parsed_text i <> parsed_text j /\
  Forall separate (operand_list i) /\ Forall separate (operand_list j).
Proof.
  do 2 eexists. split; [vm_compute; reflexivity|]. split; [vm_compute; reflexivity|]. split; [vm_compute; discriminate|].
  split; repeat constructor; discriminate.
Qed.

(** *** Invocations with input/output information *)
Theorem C72_io_iff : forall c d, inv_io_one_line c -> inv_io_one_line d -> (io_text c = io_text d <-> c = d).
Proof.
  intros c d C D. split; [|now intros ->]. intros H. apply (f_equal (fun s => s +++ "")) in H. now apply inv_io_code in H as [-> _].
Qed.
Print Assumptions C72_io_iff.
(** This covers every command line without a newline character. *)
Theorem C72_io_commands : forall s s' i j c d,
  parse shipped_dir s = Ok i -> parse shipped_dir s' = Ok j -> one_line s -> one_line s' ->
  with_io shipped_dir i c -> with_io shipped_dir j d -> (io_text c = io_text d <-> c = d).
Proof.
  intros s s' i j c d P Q S S' C D. apply (parse_one_line _ _ _ shipped_one_line) in P as [P P']; auto.
  apply (parse_one_line _ _ _ shipped_one_line) in Q as [Q Q']; auto. apply C72_io_iff; eapply with_io_one_line; eauto.
Qed.
Print Assumptions C72_io_commands.
Example C72_io_case : exists i j c d,
  parse shipped_dir "cat 'a, b'" = Ok i /\ parse shipped_dir "cat a b" = Ok j /\
  with_io shipped_dir i c /\ with_io shipped_dir j d /\ io_text c <> io_text d.
Proof.
  do 4 eexists. split; [vm_compute; reflexivity|]. split; [vm_compute; reflexivity|].
  split; [eexists; split; vm_compute; reflexivity|]. split; [eexists; split; vm_compute; reflexivity|]. vm_compute. discriminate.
Qed.
(** Refuted without this restriction: an argument with newlines can look like several arguments. *)
Theorem C72_io_newline_refuted : forall name fos a b ops i o,
  io_text (mkInvIO name fos (ArgString (a +++ newline +++ ", <class 'pash_annotations.datatypes.BasicDatatypes.ArgStringType'>: " +++
                               newline +++ tab +++ " name: " +++ b) :: ops) i o) =
  io_text (mkInvIO name fos (ArgString a :: ArgString b :: ops) i o).
Proof.
  intros name fos a b ops i o. unfold io_text, shown_invocation_io.
  cbn [io_cmd_name io_flag_option_list io_operand_list io_implicit_input io_implicit_output].
  assert (G : forall cls x y n v w z u, text v = text w -> text (SObj cls [x; y; (n, v); z; u]) = text (SObj cls [x; y; (n, w); z; u])).
  { clear. intros cls x y n v w z u E. cbn [text map fst snd]. now rewrite E. }
  apply G.
  cbn [map shown_arg]. cbn [text map fst snd]. unfold join. cbn [String.concat]. unfold standard_repr.
  cbn [map cat_all fold_right fst snd].
  destruct (map _ (map shown_arg ops)); rewrite ?sapp_assoc; reflexivity.
Qed.
Print Assumptions C72_io_newline_refuted.
Example C72_io_newline_case : exists i j c d,
  parse shipped_dir ("tr " +++ shlex_quote ("a" +++ newline +++
    ", <class 'pash_annotations.datatypes.BasicDatatypes.ArgStringType'>: " +++ newline +++ tab +++ " name: b")) = Ok i /\
  parse shipped_dir "tr a b" = Ok j /\ with_io shipped_dir i c /\ with_io shipped_dir j d /\ c <> d /\ io_text c = io_text d.
Proof.
  do 4 eexists. split; [vm_compute; reflexivity|]. split; [vm_compute; reflexivity|].
  split; [eexists; split; vm_compute; reflexivity|]. split; [eexists; split; vm_compute; reflexivity|]. split; [discriminate|vm_compute; reflexivity].
Qed.
(** The sections on inputs and outputs of two reports are the same exactly if they say the same. *)
Theorem C72_io_section : forall s s' r r',
  reports shipped_dir s r -> reports shipped_dir s' r' -> one_line s -> one_line s' ->
  (io_section_text (r_io r) = io_section_text (r_io r') <-> r_io r = r_io r').
Proof.
  intros s s' r r' (_ & P & S & _) (_ & Q & T & _) N N'. split; [|now intros ->].
  assert (A : forall c t, io_section_text (Applied c) +++ "" <> "I" +++ t /\ io_section_text (Applied c) +++ "" <> "P" +++ t).
  { intros c t. cbn [io_section_text]. unfold shown_invocation_io. cbn [text]. rewrite object_text. unfold heading.
    rewrite !sapp_assoc. split; discriminate. }
  inversion S as [X X'|x X V X'|x X V X']; inversion T as [Y Y'|y Y W Y'|y Y W Y']; intros H; try reflexivity.
  - cbn in H. discriminate.
  - exfalso. rewrite <- (sapp_nil_r (io_section_text (Applied y))) in H. symmetry in H. now apply (A y) in H.
  - cbn in H. discriminate.
  - exfalso. rewrite <- (sapp_nil_r (io_section_text (Applied y))) in H. symmetry in H. now apply (A y) in H.
  - exfalso. rewrite <- (sapp_nil_r (io_section_text (Applied x))) in H. now apply (A x) in H.
  - exfalso. rewrite <- (sapp_nil_r (io_section_text (Applied x))) in H. now apply (A x) in H.
  - f_equal. apply (C72_io_commands s s' (r_invocation r) (r_invocation r') x y P Q N N' X Y). exact H.
Qed.
Print Assumptions C72_io_section.
Example C72_io_section_case : exists r r',
  reports shipped_dir "grep x" r /\ reports shipped_dir "grep -f x" r' /\ io_section_text (r_io r) <> io_section_text (r_io r').
Proof.
  pose proof (make_report_spec shipped_dir "grep x") as M. destruct (parse shipped_dir "grep x") eqn:P; [|discriminate P].
  pose proof (make_report_spec shipped_dir "grep -f x") as M'. destruct (parse shipped_dir "grep -f x") eqn:P'; [|discriminate P'].
  destruct M as (r & E & R). destruct M' as (r' & E' & R'). exists r, r'. split; [exact R|]. split; [exact R'|].
  clear R R' P P'. vm_compute in E, E'. injection E as <-. injection E' as <-. vm_compute. discriminate.
Qed.

(** *** Parallelizability information *)
(** Two texts are the same exactly if the two flags are and the parallelizers have the same parts. *)
Theorem C72_para_iff : forall other package i j, para_one_line i -> para_one_line j ->
  (text (shown_para_info other package i) = text (shown_para_info other package j) <->
   Forall2 same_parts (parallelizer_list i) (parallelizer_list j) /\
   round_robin_compatible_with_cat i = round_robin_compatible_with_cat j /\ is_commutative i = is_commutative j).
Proof.
  intros other package i j I J.
  assert (M : map parts (parallelizer_list i) = map parts (parallelizer_list j) <-> Forall2 same_parts (parallelizer_list i) (parallelizer_list j)).
  { clear. generalize (parallelizer_list j). induction (parallelizer_list i) as [|p l IH]; intros [|q m]; cbn; (split; intros H; [|inversion H]); try discriminate; auto.
    - injection H as A B C H. constructor; [repeat split; auto|]. now apply IH.
    - subst. match goal with K : same_parts _ _ |- _ => destruct K as (A & B & C) end. f_equal; [unfold parts; congruence|]. now apply IH. }
  rewrite <- M. split.
  - intros H. apply (f_equal (fun s => s +++ "")) in H. apply para_code in H; auto. tauto.
  - intros (A & B & C). f_equal. now apply para_same.
Qed.
Print Assumptions C72_para_iff.
(** Refuted: what the splitter and the mapper have to pass on besides is not printed. *)
Theorem C72_para_refuted : forall other package s m a i i' n n' b c,
  text (shown_para_info other package (mkPI [mkPar s m a i n] b c)) =
  text (shown_para_info other package (mkPI [mkPar s m a i' n'] b c)).
Proof. reflexivity. Qed.
Print Assumptions C72_para_refuted.
(** For generated information nothing is lost by this, and no information is told from empty information. *)
Theorem C72_para_generated : forall other dir dir' i j,
  para_section_text other (get_parallelizability_info dir i) = para_section_text other (get_parallelizability_info dir' j) <->
  get_parallelizability_info dir i = get_parallelizability_info dir' j.
Proof.
  intros other dir dir' i j. split; [|now intros ->].
  assert (T : forall d k x, get_parallelizability_info d k = Some x ->
    para_one_line x /\ Forall hidden (parallelizer_list x) /\ round_robin_compatible_with_cat x = false).
  { intros d k x E. pose proof (annotated_view d k) as A. rewrite E in A. cbn in A.
    apply annotated_text in A. repeat split; [| |eapply info_cat; eauto]; (eapply Forall_impl; [|exact A]); cbn; tauto. }
  destruct (get_parallelizability_info dir i) as [x|] eqn:X; destruct (get_parallelizability_info dir' j) as [y|] eqn:Y; intros H.
  - apply T in X as (A1 & A2 & A3), Y as (B1 & B2 & B3). apply (C72_para_iff other "pash_annotations.") in H as (L & R & C); auto.
    destruct x as [l r c], y as [m r' c']. cbn in *. subst. do 2 f_equal.
    clear - L A2 B2. revert A2 B2. induction L as [|p q l m S L IH]; intros A B; [reflexivity|]. inversion A; inversion B; subst. f_equal; auto.
    now apply hidden_parts.
  - exfalso. unfold para_section_text in H. apply (f_equal (fun s => s +++ "")) in H. unfold shown_para_info in H. cbn [text] in H.
    rewrite !object_text in H. revert H. unfold heading. rewrite !sapp_assoc. cbn. discriminate.
  - exfalso. unfold para_section_text in H. apply (f_equal (fun s => s +++ "")) in H. unfold shown_para_info in H. cbn [text] in H.
    rewrite !object_text in H. revert H. unfold heading. rewrite !sapp_assoc. cbn. discriminate.
  - reflexivity.
Qed.
Print Assumptions C72_para_generated.
Example C72_para_case : forall other, exists i,
  get_parallelizability_info shipped_dir (mkInv "bigrams_aux" [] []) = Some i /\ para_one_line i /\
  parallelizer_list i <> [] /\ para_section_text other (Some i) <> para_section_text other None.
Proof.
  intros other. destruct (get_parallelizability_info shipped_dir (mkInv "bigrams_aux" [] [])) as [i|] eqn:E; [|vm_compute in E; discriminate].
  exists i. split; [reflexivity|]. pose proof (annotated_view shipped_dir (mkInv "bigrams_aux" [] [])) as A. rewrite E in A. apply annotated_text in A.
  split; [eapply Forall_impl; [|exact A]; cbn; tauto|]. vm_compute in E. injection E as <-. split; [discriminate|]. vm_compute. discriminate.
Qed.

(** *** Reports *)
(** The text of the report as printed by the tool: those of two command lines without newline characters
    are the same exactly if the command lines are. *)
Theorem C72_report : forall other s s' r r',
  reports shipped_dir s r -> reports shipped_dir s' r' -> one_line s -> one_line s' ->
  (report_text other shipped_dir r = report_text other shipped_dir r' <-> s = s').
Proof.
  intros other s s' r r' R R' N N'. pose proof R as (E & _). pose proof R' as (E' & _). split.
  - intros H. unfold report_text in H. do 2 apply sapp_inv in H. rewrite E, E' in H. now apply line_inv in H.
  - intros <-. now rewrite (C56_report_unique _ _ _ _ R R').
Qed.
Print Assumptions C72_report.
(** It shows the command line, what it was parsed to, and what is known about it, each under its heading. *)
Theorem C72_report_sections : forall other dir s r, reports dir s r ->
  exists inv sec, parse dir s = Ok inv /\ io_reported dir inv sec /\
  in_order [">>> READ COMMAND INVOCATION: "; s; ">>> PARSED COMMAND INVOCATION: "; parsed_text inv;
            ">>> INPUT-OUTPUT INFORMATION (applied to command invocation if possible): "; io_section_text sec;
            ">>> PARALLELIZABILITY INFORMATION: "; para_section_text other (get_parallelizability_info dir inv)]
    (report_text other dir r).
Proof.
  intros other dir s r (C & P & I & _). exists (r_invocation r), (r_io r). split; [exact P|]. split; [exact I|].
  unfold report_text, parsed_text. rewrite C.
  apply (in_next "" ">>> READ COMMAND INVOCATION: "), (in_next newline).
  assert (E : forall x : string, newline +++ newline +++ x = (newline +++ newline) +++ x) by (intros; now rewrite sapp_assoc).
  rewrite E. apply (in_next (newline +++ newline)). do 4 apply (in_next newline). apply (in_last newline).
Qed.
Print Assumptions C72_report_sections.
Example C72_report_case : exists r r',
  reports shipped_dir "grep x" r /\ reports shipped_dir "grep  x" r' /\
  report_text (fun _ => "") shipped_dir r <> report_text (fun _ => "") shipped_dir r'.
Proof.
  pose proof (make_report_spec shipped_dir "grep x") as M. destruct (parse shipped_dir "grep x") eqn:P; [|discriminate P].
  pose proof (make_report_spec shipped_dir "grep  x") as M'. destruct (parse shipped_dir "grep  x") eqn:P'; [|discriminate P'].
  destruct M as (r & _ & R). destruct M' as (r' & _ & R'). exists r, r'. split; [exact R|]. split; [exact R'|].
  intros H. apply (C72_report _ _ _ _ _ R R') in H; [discriminate|now apply has_char_one_line..].
Qed.
