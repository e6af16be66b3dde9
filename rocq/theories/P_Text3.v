(** * C72, continued: every line of every object *)
Require Import Verif.PyBase Verif.JsonData Verif.Parser Verif.Access Verif.IOInfo Verif.IOVars Verif.Transformers
  Verif.ParaTypes Verif.ParaGen Verif.Cli Verif.SpecCli Verif.Text Verif.ShlexFacts Verif.TextFacts Verif.SpecText2 Verif.P_Text2 Verif.ShippedData Verif.CliFacts.

Lemma object_eq p attrs lines : attrs <> [] -> map (fun a => fst a +++ ": " +++ text (snd a)) attrs = lines ->
  text (SObj ("pash_annotations." +++ p) attrs) = object p lines.
Proof.
  intros N <-. rewrite C72_object_lines by exact N. unfold object. rewrite !sapp_assoc. f_equal. f_equal. rewrite map_map. reflexivity.
Qed.
Ltac obj := match goal with |- object ?p _ = _ => symmetry; refine (object_eq p _ _ _ _); [discriminate|cbn [map fst snd text]; try reflexivity] end.

Lemma transport {A} (R : A -> string -> Prop) x t t' : R x t -> t = t' -> R x t'.
Proof. now intros H <-. Qed.
Lemma listed_eq {A} (f : A -> shown) (R : A -> string -> Prop) : (forall x, match f x with SStr _ => False | _ => True end) ->
  forall l ts, Forall2 (fun x t => R x t -> t = text (f x)) l ts -> Forall2 R l ts -> text (SList (map f l)) = listed ts.
Proof.
  intros NS l ts H G. cbn [text]. unfold listed, join. do 3 f_equal. revert H. induction G as [|x t l ts Q G IH]; intros H; [reflexivity|].
  inversion H; subst. cbn [map]. f_equal; [|now apply IH]. rewrite (H3 Q) . specialize (NS x). destruct (f x); tauto || reflexivity.
Qed.
Lemma access_text a an : In (a, an) access_names -> an = access_name a.
Proof. cbn. intros H. repeat (destruct H as [H|H]; [injection H as <- <-; reflexivity|]). destruct H. Qed.
Lemma access_in a : In (a, access_name a) access_names.
Proof. destruct a; cbn; tauto. Qed.
Lemma std_text a an : In (a, an) std_names -> an = std_name a.
Proof. cbn. intros H. repeat (destruct H as [H|H]; [injection H as <- <-; reflexivity|]). destruct H. Qed.
Lemma std_in a : In (a, std_name a) std_names.
Proof. destruct a; cbn; tauto. Qed.
Lemma splitter_text a an : In (a, an) splitter_names -> an = splitter_name a.
Proof. cbn. intros H. repeat (destruct H as [H|H]; [injection H as <- <-; reflexivity|]). destruct H. Qed.
Lemma splitter_in a : In (a, splitter_name a) splitter_names.
Proof. destruct a; cbn; tauto. Qed.
Lemma mkind_text a an : In (a, an) mapper_names -> an = mapper_kind_name a.
Proof. cbn. intros H. repeat (destruct H as [H|H]; [injection H as <- <-; reflexivity|]). destruct H. Qed.
Lemma mkind_in a : In (a, mapper_kind_name a) mapper_names.
Proof. destruct a; cbn; tauto. Qed.
Lemma akind_text a an : In (a, an) agg_names -> an = agg_kind_name a.
Proof. cbn. intros H. repeat (destruct H as [H|H]; [injection H as <- <-; reflexivity|]). destruct H. Qed.
Lemma akind_in a : In (a, agg_kind_name a) agg_names.
Proof. destruct a; cbn; tauto. Qed.

(** A relation that holds of the text and of nothing else. *)
Definition exactly {A} (R : A -> string -> Prop) (f : A -> string) : Prop := forall x t, R x t <-> t = f x.
Lemma exactly_list {A} (R : A -> string -> Prop) (f : A -> shown) : (forall x, match f x with SStr _ => False | _ => True end) ->
  exactly R (fun x => text (f x)) -> forall l ts, Forall2 R l ts -> listed ts = text (SList (map f l)).
Proof.
  intros NS E l ts G. symmetry. apply (listed_eq f R NS); [|exact G]. induction G as [|x t l ts Q G IH]; constructor; [|exact IH]. apply E.
Qed.
Lemma exactly_all {A} (R : A -> string -> Prop) (f : A -> string) : exactly R f -> forall l, Forall2 R l (map f l).
Proof. intros E. induction l; constructor; [now apply E|assumption]. Qed.

Lemma resource_exact : exactly resource_text (fun r => text (shown_resource r)).
Proof.
  assert (A : forall a, text (shown_access a) = object "datatypes.AccessKind.AccessKind" ["kind: AccessKindEnum." +++ access_name a]).
  { intros a. symmetry. obj. }
  intros r t. split.
  - intros H. destruct H as [n a an H1|d dn a an H1 H2].
    + apply access_text in H1 as ->. obj. now rewrite A.
    + apply access_text in H1 as ->. apply std_text in H2 as ->. obj. now rewrite A.
  - intros ->. destruct r as [[n|d] a]; unfold shown_resource; cbn [res_el res_access].
    + eapply transport; [constructor; apply access_in|]. obj. now rewrite A.
    + eapply transport; [constructor; [apply access_in|apply std_in]|]. obj. now rewrite A.
Qed.
Lemma arg_exact : exactly arg_text (fun r => text (shown_arg r)).
Proof.
  intros r t. split.
  - intros [s|r' t' H]; [obj|]. now apply resource_exact.
  - intros ->. destruct r as [s|r]; cbn [shown_arg]; [|constructor; now apply resource_exact]. eapply transport; [constructor|obj].
Qed.
Lemma fo_exact : exactly fo_text (fun r => text (shown_fo_io r)).
Proof.
  intros r t. split.
  - intros [n|n a t' H]; [obj|]. apply arg_exact in H as ->. obj.
  - intros ->. destruct r as [n|n a]; cbn [shown_fo_io]; (eapply transport; [constructor; try now apply arg_exact|obj]).
Qed.
Lemma implicit_exact : exactly implicit_text (fun r => text (shown_implicit r)).
Proof.
  intros r t. split.
  - intros [|r' t' H]; [reflexivity|]. now apply resource_exact.
  - intros ->. destruct r as [r|]; constructor. now apply resource_exact.
Qed.
Lemma arg_no_str x : match shown_arg x with SStr _ => False | _ => True end.
Proof. destruct x as [|[[] ?]]; exact I. Qed.
Lemma fo_no_str x : match shown_fo_io x with SStr _ => False | _ => True end.
Proof. destruct x; exact I. Qed.
Lemma invocation_exact : exactly invocation_text (fun c => text (shown_invocation_io c)).
Proof.
  intros c t. split.
  - intros [n fos fts ops ots i it o ot H1 H2 H3 H4]. apply implicit_exact in H3 as ->. apply implicit_exact in H4 as ->.
    apply (exactly_list _ _ fo_no_str fo_exact) in H1. apply (exactly_list _ _ arg_no_str arg_exact) in H2. rewrite H1, H2. obj.
  - intros ->. destruct c as [n fos ops i o].
    assert (H1 := exactly_all _ _ fo_exact fos). assert (H2 := exactly_all _ _ arg_exact ops).
    assert (H3 := proj2 (implicit_exact i _) eq_refl). assert (H4 := proj2 (implicit_exact o _) eq_refl).
    assert (G := text_invocation n _ _ _ _ _ _ _ _ H1 H2 H3 H4).
    apply (exactly_list _ _ fo_no_str fo_exact) in H1. apply (exactly_list _ _ arg_no_str arg_exact) in H2. rewrite H1, H2 in G.
    eapply transport; [exact G|obj].
Qed.
(** What is printed for an invocation with input-output information: these lines and no others. *)
Theorem C72_io_lines : forall c t, invocation_text c t <-> t = text (shown_invocation_io c).
Proof. exact invocation_exact. Qed.
Print Assumptions C72_io_lines.

Lemma plain_fo_exact : exactly plain_fo_text (fun x => text (shown_fo x)).
Proof.
  intros x t. split.
  - intros [n|n a]; obj.
  - intros ->. destruct x; cbn [shown_fo]; (eapply transport; [constructor|obj]).
Qed.
Lemma plain_fo_no_str x : match shown_fo x with SStr _ => False | _ => True end.
Proof. destruct x; exact I. Qed.
Lemma operands_listed l : text (SList (map SText l)) = listed l.
Proof. cbn [text]. unfold listed, join. do 3 f_equal. rewrite map_map. induction l; [reflexivity|]. cbn. now f_equal. Qed.
(** The same for parsed invocations. *)
Theorem C72_parsed_lines : forall i t, parsed_text i t <-> t = text (shown_invocation i).
Proof.
  intros i t. split.
  - intros [n fos fts ops H]. apply (exactly_list _ _ plain_fo_no_str plain_fo_exact) in H. rewrite H. obj. rewrite <- (operands_listed ops). reflexivity.
  - intros ->. destruct i as [n fos ops]. assert (H := exactly_all _ _ plain_fo_exact fos). assert (G := text_parsed n _ _ ops H).
    apply (exactly_list _ _ plain_fo_no_str plain_fo_exact) in H. rewrite H in G. eapply transport; [exact G|obj].
    rewrite <- (operands_listed ops). reflexivity.
Qed.
Print Assumptions C72_parsed_lines.

Section Transformers.
Variable other : flag_el -> string.
Notation ttext := (transformer_text repr_str other).
Lemma element_exact : exactly (element_text other) (fun x => text (shown_flag_el other x)).
Proof.
  intros x t. split.
  - intros [n|y N]; [obj|]. destruct y; [now destruct (N name)|reflexivity..].
  - intros ->. destruct x; cbn [shown_flag_el]; [unfold shown_flag; eapply transport; [constructor|obj]|constructor; discriminate..].
Qed.
Lemma element_no_str x : match shown_flag_el other x with SStr _ => False | _ => True end.
Proof. destruct x; exact I. Qed.
Lemma transformer_no_str x : match shown_transformer other x with SStr _ => False | _ => True end.
Proof. destruct x; exact I. Qed.
Lemma transformer_unique : forall tr t, ttext tr t -> t = text (shown_transformer other tr).
Proof.
  fix go 3. intros tr t [ | |l ts H|l ts H|l|l|l ts H].
  - reflexivity.
  - reflexivity.
  - apply (exactly_list _ _ element_no_str element_exact) in H. rewrite H. cbn [shown_transformer]. obj.
  - apply (exactly_list _ _ element_no_str element_exact) in H. rewrite H. cbn [shown_transformer]. obj.
  - obj. unfold listed, join. now rewrite map_map.
  - obj. unfold listed, join. now rewrite map_map.
  - assert (G : listed ts = text (SList (map (shown_transformer other) l))).
    { symmetry. apply (listed_eq _ ttext transformer_no_str); [|exact H]. induction H as [|x y l' ts' Q H IH]; constructor; [intros _; exact (go x y Q)|exact IH]. }
    rewrite G. obj.
Qed.
Lemma transformer_holds : forall tr, ttext tr (text (shown_transformer other tr)).
Proof.
  fix go 1. intros [ |l|l|l| |l|l]; cbn [shown_transformer].
  - constructor.
  - assert (H := exactly_all _ _ element_exact l). assert (G := text_add repr_str other l _ H).
    apply (exactly_list _ _ element_no_str element_exact) in H. rewrite H in G. eapply transport; [exact G|obj].
  - eapply transport; [constructor|obj]. unfold listed, join. now rewrite map_map.
  - eapply transport; [constructor|obj]. unfold listed, join. now rewrite map_map.
  - constructor.
  - assert (H := exactly_all _ _ element_exact l). assert (G := text_custom repr_str other l _ H).
    apply (exactly_list _ _ element_no_str element_exact) in H. rewrite H in G. eapply transport; [exact G|obj].
  - assert (H : Forall2 ttext l (map (fun x => text (shown_transformer other x)) l)).
    { induction l as [|x l' IH]; constructor; [exact (go x)|exact IH]. }
    assert (Q : listed (map (fun x => text (shown_transformer other x)) l) = text (SList (map (shown_transformer other) l))).
    { symmetry. apply (listed_eq _ ttext transformer_no_str); [|exact H]. clear. induction l as [|x l' IH]; constructor; [reflexivity|exact IH]. }
    assert (G := text_chain repr_str other l _ H). rewrite Q in G. eapply transport; [exact G|obj].
Qed.
Lemma transformer_exact : exactly ttext (fun x => text (shown_transformer other x)).
Proof. intros x t. split; [apply transformer_unique|intros ->; apply transformer_holds]. Qed.
Lemma mapper_exact : exactly (mapper_text repr_str other) (fun x => text (shown_mapper other x)).
Proof.
  intros x t. split.
  - intros [k kn c t' tt b H1 H2]. apply mkind_text in H1 as ->. apply transformer_exact in H2 as ->. obj. destruct c, b; reflexivity.
  - intros ->. destruct x as [k c tr b]. assert (G := text_mapper repr_str other k _ c tr _ b (mkind_in k) (transformer_holds tr)).
    eapply transport; [exact G|obj].  destruct c, b; reflexivity.
Qed.
Lemma agg_exact : exactly (agg_text repr_str other) (fun x => text (shown_aggregator other x)).
Proof.
  intros x t. split.
  - intros [k kn b H1|k kn tr tt b H1 H2|k kn s b H1]; apply akind_text in H1 as ->; try apply transformer_exact in H2 as ->; cbn [shown_aggregator app]; obj.
  - intros ->. destruct x as [k b|k tr b|k s b]; cbn [shown_aggregator app].
    + assert (G := text_nonfunc repr_str other k _ b (akind_in k)). eapply transport; [exact G|obj].
    + assert (G := text_aggtrans repr_str other k _ tr _ b (akind_in k) (transformer_holds tr)). eapply transport; [exact G|obj].
    + assert (G := text_aggstring repr_str other k _ s b (akind_in k)). eapply transport; [exact G|obj].
Qed.
Lemma parallelizer_shape sp m a :
  text (SParts [("Parallizer: " +++ newline +++ "splitter: ", SText ("SplitterKindEnum." +++ sp));
          (" " +++ newline +++ "mapper attr: ", m); (" " +++ newline +++ "aggregator attr: ", a)] (" " +++ newline)) =
  all_lines ["Parallizer: "; "splitter: SplitterKindEnum." +++ sp +++ " "; "mapper attr: " +++ text m +++ " "; "aggregator attr: " +++ text a +++ " "].
Proof. unfold all_lines. rewrite concat_all. cbn [text map fst snd cat_all fold_right]. rewrite !sapp_assoc. reflexivity. Qed.
Lemma parallelizer_exact : exactly (parallelizer_text repr_str other) (fun x => text (shown_parallelizer other x)).
Proof.
  intros x t. split.
  - intros [s sn m mt a at_ i n H1 H2 H3]. apply splitter_text in H1 as ->. apply mapper_exact in H2 as ->. apply agg_exact in H3 as ->.
    unfold shown_parallelizer. now rewrite parallelizer_shape.
  - intros ->. destruct x as [s m a i n]. unfold shown_parallelizer. rewrite parallelizer_shape. cbn [p_splitter p_mapper p_aggregator].
    constructor; [apply splitter_in|now apply mapper_exact|now apply agg_exact].
Qed.
Lemma parallelizer_no_str x : match shown_parallelizer other x with SStr _ => False | _ => True end.
Proof. exact I. Qed.
Lemma para_exact : exactly (para_text repr_str other) (fun x => text (shown_para_info other "pash_annotations." x)).
Proof.
  intros x t. split.
  - intros [l ts rr co H]. apply (exactly_list _ (shown_parallelizer other) parallelizer_no_str parallelizer_exact) in H. rewrite H. obj.
  - intros ->. destruct x as [l rr co]. assert (H := exactly_all _ _ parallelizer_exact l). assert (G := text_para repr_str other l _ rr co H).
    apply (exactly_list _ (shown_parallelizer other) parallelizer_no_str parallelizer_exact) in H. rewrite H in G. eapply transport; [exact G|obj].
Qed.
Lemma io_part_exact : exactly io_part io_section_text.
Proof.
  intros x t. split.
  - intros [| |c u H]; [reflexivity..|]. now apply invocation_exact.
  - intros ->. destruct x; constructor. now apply invocation_exact.
Qed.
Lemma para_part_exact : exactly (para_part repr_str other) (para_section_text other).
Proof.
  assert (N : no_para_text = para_section_text other None) by reflexivity.
  intros x t. split.
  - intros [|i u H]; [exact N|]. now apply para_exact.
  - intros ->. destruct x; [constructor; now apply para_exact|rewrite <- N; constructor].
Qed.
End Transformers.
(** The same for parallelizability information. *)
Theorem C72_para_text : forall other i t, para_part repr_str other i t <-> t = para_section_text other i.
Proof. exact para_part_exact. Qed.
Print Assumptions C72_para_text.

Lemma io_reported_unique dir inv sec sec' : io_reported dir inv sec -> io_reported dir inv sec' -> sec = sec'.
Proof.
  intros S S'. inversion S as [N|x W O|x W O]; inversion S' as [N'|x' W' O'|x' W' O']; subst; try reflexivity;
      try (exfalso; now apply (N _ W')); try (exfalso; now apply (N' _ W));
      destruct W as (j & G & Q), W' as (j' & G' & Q'); rewrite G in G'; injection G' as <-; rewrite Q in Q'; injection Q' as <-;
      congruence || (exfalso; tauto).
Qed.
(** The whole report of the tool. *)
Theorem C72_whole_report : forall other dir s r t, reports dir s r ->
  (t = report_text other dir r <->
   exists inv sec pt it at_, parse dir s = Ok inv /\ io_reported dir inv sec /\
     parsed_text inv pt /\ io_part sec it /\ para_part repr_str other (get_parallelizability_info dir inv) at_ /\
     t = report_of s pt it at_).
Proof.
  intros other dir s r t (C & P & I & _).
  assert (E : forall a b c, report_of s a b c = ">>> READ COMMAND INVOCATION: " +++ newline +++ s +++ newline +++ newline +++
    ">>> PARSED COMMAND INVOCATION: " +++ newline +++ a +++ newline +++
    ">>> INPUT-OUTPUT INFORMATION (applied to command invocation if possible): " +++ newline +++ b +++ newline +++
    ">>> PARALLELIZABILITY INFORMATION: " +++ newline +++ c) by reflexivity.
  split.
  - intros ->. exists (r_invocation r), (r_io r), (text (shown_invocation (r_invocation r))), (io_section_text (r_io r)),
      (para_section_text other (get_parallelizability_info dir (r_invocation r))).
    split; [exact P|]. split; [exact I|]. split; [now apply C72_parsed_lines|]. split; [now apply io_part_exact|]. split; [now apply para_part_exact|].
    rewrite E, <- C. reflexivity.
  - intros (inv & sec & pt & it & at_ & P' & I' & H1 & H2 & H3 & ->). apply C72_parsed_lines in H1 as ->. apply io_part_exact in H2 as ->.
    apply para_part_exact in H3 as ->. rewrite P in P'. injection P' as <-. assert (sec = r_io r) as ->. { now apply (io_reported_unique dir (r_invocation r)). }
    rewrite E, <- C. reflexivity.
Qed.
Print Assumptions C72_whole_report.
Example C72_whole_report_case : exists r t, reports shipped_dir "cat -n a" r /\ t = report_text (fun _ => "") shipped_dir r /\
  t = report_of "cat -n a"
    (object "datatypes.CommandInvocationInitial.CommandInvocationInitial"
       ["cmd_name: cat"; "flag_option_list: [" +++ object "datatypes.BasicDatatypes.Flag" ["flag_name: -n"] +++ "]"; "operand_list: [a]"])
    (object "datatypes.CommandInvocationWithIO.CommandInvocationWithIO"
       ["cmd_name: cat"; "flag_option_list: [" +++ object "datatypes.BasicDatatypes.Flag" ["flag_name: -n"] +++ "]";
        "operand_list: [" +++ object "datatypes.BasicDatatypesWithIO.FileNameWithIOInfo"
          ["name: a"; "access: " +++ object "datatypes.AccessKind.AccessKind" ["kind: AccessKindEnum.STREAM_INPUT"]] +++ "]";
        "implicit_use_of_streaming_input: None";
        "implicit_use_of_streaming_output: " +++ object "datatypes.BasicDatatypesWithIO.StdDescriptorWithIOInfo"
          ["name: StdDescriptorEnum.STDOUT"; "access: " +++ object "datatypes.AccessKind.AccessKind" ["kind: AccessKindEnum.STREAM_OUTPUT"]]])
    (para_section_text (fun _ => "") (get_parallelizability_info shipped_dir (mkInv "cat" [Flag "-n"] ["a"]))).
Proof.
  pose proof (make_report_spec shipped_dir "cat -n a") as M. destruct (parse shipped_dir "cat -n a") eqn:P; [|discriminate P].
  destruct M as (r & M & R). exists r, (report_text (fun _ => "") shipped_dir r). split; [exact R|]. split; [reflexivity|].
  vm_compute in M. injection M as <-. vm_compute. reflexivity.
Qed.
