(** * The texts of the objects of the report *)
Require Import Verif.PyBase Verif.JsonData Verif.Shlex Verif.Parser Verif.Access Verif.IOInfo Verif.IOVars Verif.Transformers
  Verif.ParaTypes Verif.SpecShlex Verif.ShlexFacts Verif.ParaProps Verif.Text Verif.SpecText Verif.TextFacts.

Ltac objects H := cbn [text map fst snd] in H; rewrite !object_text in H.
Ltac same H := apply sapp_inv in H; cbn [lines fst snd] in H.
Ltac differ H := exfalso; revert H; apply clash_neq; vm_compute; reflexivity.

(** fixed texts *)
Lemma has_char_one_line s : has_char "010" s = false -> one_line s.
Proof.
  unfold one_line. induction s as [|c s IH]; cbn [has_char all_chars]; intros H; [exact Logic.I|].
  destruct (Ascii.eqb "010" c) eqn:E; [discriminate|]. split; [|auto]. intros ->. now rewrite Ascii.eqb_refl in E.
Qed.
Lemma access_line a : one_line ("AccessKindEnum." +++ access_name a).
Proof. apply has_char_one_line. now destruct a. Qed.
Lemma std_line d : one_line ("StdDescriptorEnum." +++ std_name d).
Proof. apply has_char_one_line. now destruct d. Qed.
Lemma splitter_line s : one_line ("SplitterKindEnum." +++ splitter_name s).
Proof. apply has_char_one_line. now destruct s. Qed.
Lemma agg_kind_line k : one_line ("AggregatorKindEnum." +++ agg_kind_name k).
Proof. apply has_char_one_line. now destruct k. Qed.
Lemma mapper_kind_line k : one_line ("MapperSpecKindEnum." +++ mapper_kind_name k).
Proof. apply has_char_one_line. now destruct k. Qed.
Lemma bool_line b : one_line (text (shown_bool b)).
Proof. apply has_char_one_line. now destruct b. Qed.
Lemma access_inj a b : "AccessKindEnum." +++ access_name a = "AccessKindEnum." +++ access_name b -> a = b.
Proof. destruct a, b; (reflexivity || discriminate). Qed.
Lemma std_inj a b : "StdDescriptorEnum." +++ std_name a = "StdDescriptorEnum." +++ std_name b -> a = b.
Proof. destruct a, b; (reflexivity || discriminate). Qed.
Lemma splitter_inj a b : "SplitterKindEnum." +++ splitter_name a = "SplitterKindEnum." +++ splitter_name b -> a = b.
Proof. destruct a, b; (reflexivity || discriminate). Qed.
Lemma agg_kind_inj a b : "AggregatorKindEnum." +++ agg_kind_name a = "AggregatorKindEnum." +++ agg_kind_name b -> a = b.
Proof. destruct a, b; (reflexivity || discriminate). Qed.
Lemma mapper_kind_inj a b : "MapperSpecKindEnum." +++ mapper_kind_name a = "MapperSpecKindEnum." +++ mapper_kind_name b -> a = b.
Proof. destruct a, b; (reflexivity || discriminate). Qed.
Lemma bool_inj a b : text (shown_bool a) = text (shown_bool b) -> a = b.
Proof. destruct a, b; (reflexivity || discriminate). Qed.

(** ** Invocations *)
Lemma flag_code : code one_line (fun n => text (shown_flag n)).
Proof.
  intros a b x y A B H. unfold shown_flag in H. objects H. same H. apply line_same in H. now apply line_inv in H.
Qed.
Lemma fo_code : code fo_one_line (fun fo => text (shown_fo fo)).
Proof.
  intros [n|n v] [m|m w] x y A B H; cbn [shown_fo] in H; unfold shown_flag in H; objects H; try differ H; same H;
    apply line_same in H; cbn in A, B.
  - apply line_inv in H as [-> ->]; auto.
  - apply line_inv in H as [-> H]; try tauto. apply line_same in H. apply line_inv in H as [-> ->]; tauto.
Qed.
Lemma access_code : code (fun _ => True) (fun a => text (shown_access a)).
Proof.
  intros a b x y _ _ H. unfold shown_access in H. objects H. same H. apply line_same in H.
  apply line_inv in H as [E ->]; [|apply access_line..]. apply access_inj in E. auto.
Qed.
Lemma arg_code : code arg_one_line (fun a => text (shown_arg a)).
Proof.
  intros [s|[[n|d] a]] [t|[[m|e] b]] x y A B H; cbn [shown_arg shown_resource res_el res_access arg_one_line] in *;
    objects H; try differ H; same H; apply line_same in H.
  - apply line_inv in H as [-> ->]; auto.
  - apply line_inv in H as [-> H]; auto. apply line_same in H. apply access_code in H as [-> H]; auto. now apply newline_inv in H as ->.
  - apply line_inv in H as [E H]; try apply std_line. apply std_inj in E as ->. apply line_same in H.
    apply access_code in H as [-> H]; auto. now apply newline_inv in H as ->.
Qed.
Lemma fo_io_code : code fo_io_one_line (fun fo => text (shown_fo_io fo)).
Proof.
  intros [n|n v] [m|m w] x y A B H; cbn [shown_fo_io] in H; unfold shown_flag in H; objects H; try differ H; same H;
    apply line_same in H; cbn in A, B.
  - apply line_inv in H as [-> ->]; auto.
  - apply line_inv in H as [-> H]; try tauto. apply line_same in H. apply arg_code in H as [-> H]; try tauto. now apply newline_inv in H as ->.
Qed.
Lemma arg_object a : exists c l, text (shown_arg a) = standard_repr c l.
Proof. destruct a as [s|[[n|d] a]]; do 2 eexists; cbn [shown_arg shown_resource res_el text]; reflexivity. Qed.
Lemma implicit_code : code implicit_one_line (fun r => text (shown_implicit r)).
Proof.
  intros [r|] [q|] x y A B H; cbn [shown_implicit implicit_one_line] in *.
  - apply (arg_code (Res r) (Res q)) in H as [E ->]; auto. injection E as ->. auto.
  - exfalso. destruct (arg_object (Res r)) as (c & l & E). cbn [shown_arg] in E. rewrite E in H. now apply object_none in H.
  - exfalso. destruct (arg_object (Res q)) as (c & l & E). cbn [shown_arg] in E. rewrite E in H. symmetry in H. now apply object_none in H.
  - cbn in H. injection H as ->. auto.
Qed.
(** Lists of objects *)
Definition obj (v : shown) : Prop := match v with SStr _ => False | _ => True end.
Lemma list_text (l : list shown) : Forall obj l -> text (SList l) = "[" +++ join (map text l) +++ "]".
Proof.
  intros F. cbn [text]. do 3 f_equal. apply map_ext_in. intros v I. rewrite Forall_forall in F. specialize (F v I). now destruct v.
Qed.
Lemma objects_code {A} (ok : A -> Prop) (f : A -> shown) :
  (forall a, obj (f a)) -> (forall a x y, text (f a) +++ x <> "]" +++ y) -> code ok (fun a => text (f a)) ->
  code (Forall ok) (fun l => text (SList (map f l))).
Proof.
  intros O N C l m x y L M H. rewrite !list_text, !map_map in H by (apply Forall_forall; intros v I; apply in_map_iff in I as (a & <- & _); apply O).
  revert H. apply (list_code ok (fun a => text (f a))); auto.
Qed.
Lemma fos_code : code (Forall fo_one_line) (fun l => text (SList (map shown_fo l))).
Proof.
  apply objects_code; [|intros [n|n v] x y; cbn [shown_fo]; unfold shown_flag; cbn [text]; apply object_bracket|apply fo_code].
  now intros [n|n v].
Qed.
Lemma fos_io_code : code (Forall fo_io_one_line) (fun l => text (SList (map shown_fo_io l))).
Proof.
  apply objects_code; [|intros [n|n v] x y; cbn [shown_fo_io]; unfold shown_flag; cbn [text]; apply object_bracket|apply fo_io_code].
  now intros [n|n v].
Qed.
Lemma args_code : code (Forall arg_one_line) (fun l => text (SList (map shown_arg l))).
Proof.
  apply objects_code; [|intros a x y; destruct (arg_object a) as (c & l & ->); apply object_bracket|apply arg_code].
  now intros [n|[[n|v] a]].
Qed.

Lemma inv_io_code : code inv_io_one_line (fun c => text (shown_invocation_io c)).
Proof.
  intros [n f o i u] [m g p j w] x y (A1 & A2 & A3 & A4 & A5) (B1 & B2 & B3 & B4 & B5) H.
  cbn [io_cmd_name io_flag_option_list io_operand_list io_implicit_input io_implicit_output] in *.
  unfold shown_invocation_io in H. cbn [io_cmd_name io_flag_option_list io_operand_list io_implicit_input io_implicit_output] in H.
  remember (SList (map shown_fo_io f)) as lf. remember (SList (map shown_fo_io g)) as lg.
  remember (SList (map shown_arg o)) as lo. remember (SList (map shown_arg p)) as lp.
  objects H. same H. apply line_same in H. apply line_inv in H as [-> H]; auto.
  apply line_same in H. subst lf lg. apply fos_io_code in H as [-> H]; auto. apply newline_inv in H.
  apply line_same in H. subst lo lp. apply args_code in H as [-> H]; auto. apply newline_inv in H.
  apply line_same in H. apply implicit_code in H as [-> H]; auto. apply newline_inv in H.
  apply line_same in H. apply implicit_code in H as [-> H]; auto. apply newline_inv in H. auto.
Qed.

(** The text of a parsed invocation, up to its operands *)
Lemma operands_text ops : text (SList (map SText ops)) = "[" +++ join ops +++ "]".
Proof.
  rewrite list_text by (apply Forall_forall; intros v I; apply in_map_iff in I as (a & <- & _); exact Logic.I).
  rewrite map_map. cbn [text]. now rewrite map_id.
Qed.
Lemma inv_text i x : exists h, text (shown_invocation i) +++ x =
  h +++ line "cmd_name" (cmd_name i) (line "flag_option_list" (text (SList (map shown_fo (flag_option_list i))))
    (line "operand_list" ("[" +++ join (operand_list i) +++ "]") x)) /\
  h = heading (datatypes +++ "CommandInvocationInitial.CommandInvocationInitial") [("", "")].
Proof.
  eexists. split; [|reflexivity]. unfold shown_invocation. rewrite <- operands_text.
  remember (SList (map shown_fo (flag_option_list i))) as l. remember (SList (map SText (operand_list i))) as m.
  cbn [text map fst snd]. rewrite object_text. reflexivity.
Qed.
Lemma inv_prefix i j x y : inv_one_line i -> inv_one_line j ->
  text (shown_invocation i) +++ x = text (shown_invocation j) +++ y ->
  cmd_name i = cmd_name j /\ flag_option_list i = flag_option_list j /\
  join (operand_list i) +++ "]" +++ newline +++ x = join (operand_list j) +++ "]" +++ newline +++ y.
Proof.
  intros [A1 A2] [B1 B2] H. destruct (inv_text i x) as (h & E & Eh). destruct (inv_text j y) as (h' & E' & Eh').
  rewrite E, E', Eh, Eh' in H. apply sapp_inv in H. apply line_same in H. apply line_inv in H as [-> H]; auto.
  apply line_same in H. apply fos_code in H as [-> H]; auto. apply newline_inv in H. apply line_same in H.
  rewrite !sapp_assoc in H. apply sapp_inv in H. auto.
Qed.
Lemma inv_same i j : cmd_name i = cmd_name j -> flag_option_list i = flag_option_list j ->
  join (operand_list i) = join (operand_list j) -> text (shown_invocation i) = text (shown_invocation j).
Proof.
  intros A B C. destruct (inv_text i "") as (h & E & Eh). destruct (inv_text j "") as (h' & E' & Eh').
  rewrite sapp_nil_r in E, E'. rewrite E, E', Eh, Eh', A, B, C. reflexivity.
Qed.

(** Operands that can be told apart *)
Lemma join_separate l : forall m, Forall separate l -> Forall separate m -> join l = join m -> l = m.
Proof.
  assert (S : forall a b x y, separate a -> separate b -> (x = "" \/ exists x', x = "," +++ x') -> (y = "" \/ exists y', y = "," +++ y') ->
    a +++ x = b +++ y -> a = b /\ x = y).
  { intros a b x y [_ A] [_ B] X Y. revert b B. induction a as [|c a IH]; intros [|d b] B H; cbn in *.
    - auto.
    - destruct X as [->|[x' ->]]; [discriminate|]. cbn in H. injection H as H _. destruct B. congruence.
    - destruct Y as [->|[y' ->]]; [discriminate|]. cbn in H. injection H as H _. destruct A. congruence.
    - injection H as -> H. destruct A, B. destruct (IH ltac:(assumption) b) as [-> ->]; auto. }
  induction l as [|a l IH]; intros [|b m] L M H; [reflexivity|..].
  - exfalso. inversion M as [|? ? [N _] ?]; subst. rewrite join_cons in H. change (join []) with "" in H. destruct m; [congruence|]. destruct b; [congruence|discriminate].
  - exfalso. inversion L as [|? ? [N _] ?]; subst. rewrite join_cons in H. change (join []) with "" in H. destruct l; [congruence|]. destruct a; [congruence|discriminate].
  - inversion L; subst. inversion M; subst. rewrite !join_cons in H.
    assert (G : forall (l : list string) (a : string), match l with [] => a | _ => a +++ ", " +++ join l end =
      a +++ match l with [] => "" | _ => ", " +++ join l end) by (intros [|? ?] ?; now rewrite ?sapp_nil_r).
    rewrite (G l a), (G m b) in H. apply S in H; auto.
    + destruct H as [-> H]. f_equal. destruct l, m; try discriminate; [reflexivity|]. apply sapp_inv in H. auto.
    + destruct l; [now left|right; eexists (" " +++ _); reflexivity].
    + destruct m; [now left|right; eexists (" " +++ _); reflexivity].
Qed.

(** ** Parallelizability information *)
Section Para.
Variable other : flag_el -> string.
Definition flag_only (x : flag_el) : Prop := exists n, x = FFlag n /\ one_line n.
Lemma flag_el_code : code flag_only (fun x => text (shown_flag_el other x)).
Proof.
  intros a b x y (n & -> & N) (m & -> & M) H. cbn [shown_flag_el] in H. apply flag_code in H as [-> ->]; auto.
Qed.
Lemma flag_els_code l m x y : Forall flag_only l -> Forall flag_only m ->
  text (SList (map (shown_flag_el other) l)) +++ x = text (SList (map (shown_flag_el other) m)) +++ y -> l = m /\ x = y.
Proof.
  intros L M H. rewrite !list_text, !map_map in H by (apply Forall_forall; intros v I; apply in_map_iff in I as (a & <- & _); now destruct a).
  revert H. apply (list_code flag_only (fun a => text (shown_flag_el other a))); auto; [apply flag_el_code|].
  intros a x' y' (n & -> & _). cbn [shown_flag_el]. unfold shown_flag. cbn [text]. apply object_bracket.
Qed.
Lemma strings_code l m x y : text (SList (map SStr l)) +++ x = text (SList (map SStr m)) +++ y -> l = m /\ x = y.
Proof.
  cbn [text]. rewrite !map_map. apply (list_code (fun _ => True) repr_str).
  - apply repr_code.
  - intros a x' y' _. unfold repr_str. destruct (_ && _); discriminate.
  - now apply Forall_forall.
  - now apply Forall_forall.
Qed.
Lemma transformer_object t : exists c l, text (shown_transformer other t) = standard_repr c l.
Proof. destruct t; do 2 eexists; cbn [shown_transformer]; cbv zeta; cbn [text]; reflexivity. Qed.
Lemma holds_chain ts : holds_flags (TChain ts) <-> Forall holds_flags ts.
Proof. cbn [holds_flags]. induction ts as [|t ts IH]; cbn; [easy|]. rewrite IH. split; [intros []; auto|inversion 1; auto]. Qed.
Lemma transformer_code : code holds_flags (fun t => text (shown_transformer other t)).
Proof.
  intros t. induction t as [ |l|l|l| |l|ts IH] using transformer_ind'; intros [ |m|m|m| |m|us] x y A B H;
    cbn [shown_transformer] in H; cbv zeta in H.
  all: try (cbn [text map fst snd] in H; rewrite !object_text in H; differ H).
  1,5: cbn [text map fst snd] in H; apply sapp_inv in H; auto.
  all: match type of H with text (SObj _ [(_, ?a)]) +++ _ = text (SObj _ [(_, ?b)]) +++ _ => remember a as v eqn:Ev; remember b as w eqn:Ew end;
    objects H; same H; apply line_same in H; subst v w.
  1,4: apply flag_els_code in H as [-> H]; auto; apply newline_inv in H; auto.
  1,2: apply strings_code in H as [-> H]; apply newline_inv in H; auto.
  rewrite holds_chain in A, B.
  rewrite !list_text, !map_map in H by (apply Forall_forall; intros v I; apply in_map_iff in I as (a & <- & _); now destruct a).
  apply (list_code_at holds_flags (fun t => text (shown_transformer other t))) in H; auto.
  - destruct H as [-> H]. apply newline_inv in H. auto.
  - intros a x' y' _. destruct (transformer_object a) as (c & l & ->). apply object_bracket.
  - rewrite Forall_forall in *. intros a I b x' y' K E. apply (IH a I b x' y'); auto.
Qed.
Lemma cmd_name_code n m x y :
  match n with None => True | Some s => one_line s /\ s <> "None" end -> match m with None => True | Some s => one_line s /\ s <> "None" end ->
  text (match n with None => SText "None" | Some s => SStr s end) +++ newline +++ x =
  text (match m with None => SText "None" | Some s => SStr s end) +++ newline +++ y -> n = m /\ x = y.
Proof.
  assert (N : one_line "None") by now apply has_char_one_line.
  destruct n as [n|], m as [m|]; cbn [text]; intros A B H; apply line_inv in H as [E ->]; try tauto; subst; auto; tauto.
Qed.
Lemma mapper_code : code mapper_one_line (fun m => text (shown_mapper other m)).
Proof.
  intros [k n t b] [k' n' t' b'] x y [A1 A2] [B1 B2] H. cbn [ms_transformer ms_cmd_name] in *. unfold shown_mapper in H.
  cbn [ms_kind ms_cmd_name ms_transformer ms_is_implemented] in H.
  remember (shown_transformer other t) as v. remember (shown_transformer other t') as w.
  remember (match n with None => SText "None" | Some s => SStr s end) as vn. remember (match n' with None => SText "None" | Some s => SStr s end) as wn.
  remember (shown_bool b) as vb. remember (shown_bool b') as wb.
  objects H. same H. apply line_same in H. apply line_inv in H as [E H]; try apply mapper_kind_line. apply mapper_kind_inj in E as ->.
  apply line_same in H. subst vn wn. apply cmd_name_code in H as [-> H]; auto.
  apply line_same in H. subst v w. apply transformer_code in H as [-> H]; auto. apply newline_inv in H.
  apply line_same in H. subst vb wb. apply line_inv in H as [E ->]; try apply bool_line. apply bool_inj in E as ->. auto.
Qed.
Lemma aggregator_code : code agg_one_line (fun a => text (shown_aggregator other a)).
Proof.
  intros a c x y A C H.
  assert (G : forall (k k' : agg_kind) (b b' : bool) r r',
    line "kind" ("AggregatorKindEnum." +++ agg_kind_name k) (line "is_implemented" (text (shown_bool b)) r) =
    line "kind" ("AggregatorKindEnum." +++ agg_kind_name k') (line "is_implemented" (text (shown_bool b')) r') -> k = k' /\ b = b' /\ r = r').
  { intros k k' b b' r r' E. apply line_same in E. apply line_inv in E as [F E]; try apply agg_kind_line. apply agg_kind_inj in F as ->.
    apply line_same in E. apply line_inv in E as [F ->]; try apply bool_line. apply bool_inj in F as ->. auto. }
  destruct a as [k b|k t b|k s b], c as [k' b'|k' t' b'|k' s' b']; cbn [shown_aggregator] in H; cbv zeta in H; cbn [app] in H;
    remember (shown_bool b) as vb; remember (shown_bool b') as wb;
    try remember (shown_transformer other t) as vt; try remember (shown_transformer other t') as wt;
    objects H; try differ H; same H; subst vb wb; apply G in H as (-> & -> & H).
  - auto.
  - apply line_same in H. subst vt wt. apply transformer_code in H as [-> H]; auto. apply newline_inv in H as ->. auto.
  - apply line_same in H. apply line_inv in H as [-> ->]; auto.
Qed.
Definition parts (p : parallelizer) : splitter * mapper_spec * agg_spec := (p_splitter p, p_mapper p, p_aggregator p).
Definition shown_parts (p : splitter * mapper_spec * agg_spec) : shown :=
  let '(s, m, a) := p in shown_parallelizer other (mkPar s m a NO_ADD_INPUT 0).
Lemma parts_code : code (fun p => mapper_one_line (snd (fst p)) /\ agg_one_line (snd p)) (fun p => text (shown_parts p)).
Proof.
  intros [[s m] a] [[s' m'] a'] x y [A1 A2] [B1 B2] H. cbn [fst snd] in *. unfold shown_parts, shown_parallelizer in H.
  cbn [p_splitter p_mapper p_aggregator] in H.
  remember (shown_mapper other m) as vm. remember (shown_mapper other m') as wm.
  remember (shown_aggregator other a) as va. remember (shown_aggregator other a') as wa.
  cbn [text map fst snd cat_all fold_right] in H. rewrite !sapp_assoc in H. do 3 apply sapp_inv in H.
  pose proof (line_code " " ltac:(cbn; split; [discriminate|exact Logic.I])) as L.
  specialize (L ("SplitterKindEnum." +++ splitter_name s) ("SplitterKindEnum." +++ splitter_name s')
    ("mapper attr: " +++ text vm +++ " " +++ newline +++ "aggregator attr: " +++ text va +++ "" +++ " " +++ newline +++ x)
    ("mapper attr: " +++ text wm +++ " " +++ newline +++ "aggregator attr: " +++ text wa +++ "" +++ " " +++ newline +++ y)
    (splitter_line s) (splitter_line s')). cbv beta in L. rewrite !sapp_assoc in L.
  destruct (L H) as [E H']. clear L H. apply splitter_inj in E as ->. apply sapp_inv in H'. subst vm wm. apply mapper_code in H' as [-> H]; auto.
  do 3 apply sapp_inv in H. subst va wa. apply aggregator_code in H as [-> H]; auto. do 3 apply sapp_inv in H. auto.
Qed.
Lemma shown_parallelizer_parts p : shown_parallelizer other p = shown_parts (parts p).
Proof. now destruct p. Qed.
Lemma para_code pk i j : para_one_line i -> para_one_line j ->
  forall x y, text (shown_para_info other pk i) +++ x = text (shown_para_info other pk j) +++ y ->
  map parts (parallelizer_list i) = map parts (parallelizer_list j) /\
  round_robin_compatible_with_cat i = round_robin_compatible_with_cat j /\ is_commutative i = is_commutative j /\ x = y.
Proof.
  intros A B x y H. unfold shown_para_info in H. rewrite !(map_ext _ _ shown_parallelizer_parts) in H.
  rewrite <- !(map_map parts shown_parts) in H.
  assert (P : forall k, para_one_line k -> Forall (fun p => mapper_one_line (snd (fst p)) /\ agg_one_line (snd p)) (map parts (parallelizer_list k))).
  { intros k K. apply Forall_map. exact K. }
  apply P in A, B. clear P. generalize dependent (map parts (parallelizer_list i)). generalize dependent (map parts (parallelizer_list j)).
  intros l L m M H. remember (SList (map shown_parts l)) as vl. remember (SList (map shown_parts m)) as vm.
  remember (shown_bool (round_robin_compatible_with_cat i)) as b1. remember (shown_bool (round_robin_compatible_with_cat j)) as b2.
  remember (shown_bool (is_commutative i)) as c1. remember (shown_bool (is_commutative j)) as c2.
  objects H. unfold heading in H. same H. apply line_same in H. subst vl vm.
  apply (objects_code (fun p => mapper_one_line (snd (fst p)) /\ agg_one_line (snd p)) shown_parts) in H; auto.
  - destruct H as [-> H]. apply newline_inv in H. apply line_same in H. subst b1 b2. apply line_inv in H as [E H]; try apply bool_line.
    apply bool_inj in E. apply line_same in H. subst c1 c2. apply line_inv in H as [F ->]; try apply bool_line. apply bool_inj in F. auto.
  - now intros [[s n] a].
  - intros [[s n] a] x' y'. unfold shown_parts, shown_parallelizer. cbn [text map fst snd cat_all fold_right]. discriminate.
  - apply parts_code.
Qed.
Lemma para_same pk i j : map parts (parallelizer_list i) = map parts (parallelizer_list j) ->
  round_robin_compatible_with_cat i = round_robin_compatible_with_cat j -> is_commutative i = is_commutative j ->
  shown_para_info other pk i = shown_para_info other pk j.
Proof.
  intros A B C. unfold shown_para_info. rewrite !(map_ext _ _ shown_parallelizer_parts), <- !(map_map parts shown_parts), A, B, C. reflexivity.
Qed.
End Para.
