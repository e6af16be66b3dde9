(** * C74: registering a command and what it does to the others *)
Require Import Verif.PyBase Verif.JsonData Verif.Parser Verif.IOInfo Verif.IOGen Verif.ParaTypes Verif.ParaGen Verif.Shlex Verif.Registry Verif.SpecRegistry.
Require Import Verif.ShippedFacts Verif.RegistryFacts Verif.ShippedData.
Require Import Permutation Lia.

(** The package can be imported exactly if every file that a registered command names is absent
    (for Python) or defines its class. *)
Theorem C74_import_iff : forall cls (p : package cls) table,
  (exists g, import_generators p table = Imported g) <->
  forall r, registered table r -> plain_name r /\ forall k, tolerated p k r.
Proof. intros. apply import_ok. Qed.
Print Assumptions C74_import_iff.

(** A command gets information exactly if everything imports, the representation used for it is
    registered, its file defines the class, and the generator does not raise. *)
Theorem C74_found_iff : forall cls info (run : cls -> invocation -> result info) k p table inv i,
  answer run k p table inv = Some i <->
  (exists g, import_generators p table = Imported g) /\
  exists r c, used_for table (cmd_name inv) r /\ registered table r /\ class_in p k r c /\ run c inv = Ok i.
Proof. intros. apply answer_iff. Qed.
Print Assumptions C74_found_iff.

(** One file without its class, or one that raises, takes away the information of all commands. *)
Theorem C74_one_bad_file : forall cls info (run : cls -> invocation -> result info) k k' p table r inv,
  registered table r -> ~ tolerated p k' r -> answer run k p table inv = None.
Proof.
  intros cls info run k k' p table r inv R T. destruct (answer run k p table inv) eqn:E; [|reflexivity].
  apply answer_iff in E as (I & _). destruct T. apply (proj1 (import_ok p table) I r R).
Qed.
Print Assumptions C74_one_bad_file.

(** A new entry keeps the package importable exactly if its own files are fine. *)
Theorem C74_import_added : forall cls (p : package cls) l1 l2 cmd r,
  (exists g, import_generators p (l1 ++ (cmd, r) :: l2) = Imported g) <->
  (exists g, import_generators p (l1 ++ l2) = Imported g) /\ plain_name r /\ forall k, tolerated p k r.
Proof.
  intros. rewrite !import_ok.
  assert (Q : forall x, registered (l1 ++ (cmd, r) :: l2) x <-> registered (l1 ++ l2) x \/ x = r).
  { intros x. rewrite !registered_iff, !map_app, !in_app_iff. simpl. intuition congruence. }
  split.
  - intros H. split; [intros x R; apply H, Q; auto|]. apply H, Q. auto.
  - intros (H & N & T) x R. apply Q in R as [R| ->]; auto.
Qed.
Print Assumptions C74_import_added.

(** The new command has exactly the information of its class. *)
Theorem C74_new : forall cls info (run : cls -> invocation -> result info) k p l1 l2 cmd r inv i,
  ~ In cmd (map fst l1) -> cmd_name inv = cmd -> (exists g, import_generators p (l1 ++ (cmd, r) :: l2) = Imported g) ->
  (answer run k p (l1 ++ (cmd, r) :: l2) inv = Some i <-> exists c, class_in p k r c /\ run c inv = Ok i).
Proof.
  intros cls info run k p l1 l2 cmd r inv i N <- I. rewrite answer_iff. assert (F := find_here l1 l2 (cmd_name inv) r N). split.
  - intros (_ & x & c & U & _ & C & Q). destruct U as [U|(U & _)]; [|congruence]. rewrite F in U. injection U as <-. eauto.
  - intros (c & C & Q). split; [exact I|]. exists r, c. split; [now left|]. split; [|auto]. exists (cmd_name inv). apply in_app_iff. right. now left.
Qed.
Print Assumptions C74_new.

(** All other commands keep what they had, provided the new representation is not the word None,
    or was there before, or the other command is registered itself. *)
Theorem C74_others : forall cls info (run : cls -> invocation -> result info) k p p' l1 l2 cmd r inv,
  (exists g, import_generators p (l1 ++ l2) = Imported g) ->
  (exists g, import_generators p' (l1 ++ (cmd, r) :: l2) = Imported g) ->
  agree_on p p' (l1 ++ l2) -> cmd_name inv <> cmd ->
  (r <> "None" \/ registered (l1 ++ l2) "None" \/ dict_find (l1 ++ l2) (cmd_name inv) <> None) ->
  answer run k p' (l1 ++ (cmd, r) :: l2) inv = answer run k p (l1 ++ l2) inv.
Proof.
  intros cls info run k p p' l1 l2 cmd r inv I I' A N O. apply option_ext. intros i. rewrite !answer_iff.
  assert (Q : forall x, registered (l1 ++ (cmd, r) :: l2) x <-> registered (l1 ++ l2) x \/ x = r).
  { intros x. rewrite !registered_iff, !map_app, !in_app_iff. simpl. intuition congruence. }
  assert (U : forall x, used_for (l1 ++ (cmd, r) :: l2) (cmd_name inv) x <-> used_for (l1 ++ l2) (cmd_name inv) x).
  { intros x. unfold used_for. now rewrite find_insert. }
  assert (C : forall x c, registered (l1 ++ l2) x -> class_in p' k x c <-> class_in p k x c).
  { intros x c R. unfold class_in. now rewrite (A x k R). }
  split; intros (_ & x & c & H1 & H2 & H3 & H4); (split; [assumption|]); exists x, c.
  - apply U in H1. assert (R : registered (l1 ++ l2) x).
    { apply Q in H2 as [H2| ->]; [auto|]. destruct H1 as [H1|(H1 & ->)].
      - exists (cmd_name inv). clear - H1. induction (l1 ++ l2) as [|(y & w) l IH]; simpl in *; [discriminate|].
        destruct (String.eqb _ y) eqn:E; [apply String.eqb_eq in E; injection H1 as ->; left; congruence|auto].
      - destruct O as [O|[O|O]]; [now contradiction O|exact O|congruence]. }
    rewrite <- C by auto. auto.
  - rewrite Q, U, C by auto. auto.
Qed.
Print Assumptions C74_others.

(** Without the condition it fails: a class called None answers for every unregistered command. *)
Theorem C74_none_refuted : forall cls info (run : cls -> invocation -> result info) k p table c inv,
  (exists g, import_generators p table = Imported g) -> registered table "None" -> class_in p k "None" c ->
  dict_find table (cmd_name inv) = None -> answer run k p table inv = except_none (run c inv).
Proof.
  intros cls info run k p table c inv I R C N. apply option_ext. intros i. rewrite answer_iff. split.
  - intros (_ & x & c' & [U|(_ & ->)] & _ & C' & Q); [congruence|]. destruct C as (n & P & F), C' as (n' & P' & F').
    assert (c = c') as <- by congruence. now rewrite Q.
  - intros Q. split; [auto|]. exists "None", c. split; [right; auto|]. split; [auto|]. split; [auto|]. destruct (run c inv); [simpl in Q; congruence|discriminate].
Qed.
Print Assumptions C74_none_refuted.

(** The order of the table does not matter. *)
Theorem C74_order : forall cls info (run : cls -> invocation -> result info) k p table table' inv,
  Permutation table table' -> NoDup (map fst table) -> answer run k p table inv = answer run k p table' inv.
Proof.
  intros cls info run k p table table' inv P D. apply option_ext. intros i. rewrite !answer_iff, !import_ok.
  assert (R : forall x, registered table x <-> registered table' x).
  { intros x. unfold registered. split; intros (c & I); exists c; [now apply (Permutation_in _ P)|now apply (Permutation_in _ (Permutation_sym P))]. }
  assert (I : forall (t : dict string) c v, NoDup (map fst t) -> dict_find t c = Some v <-> In (c, v) t).
  { induction t as [|(x & w) t IH]; intros c v ND; simpl; [split; [discriminate|tauto]|]. simpl in ND. apply NoDup_cons_iff in ND as (N1 & N2).
    destruct (String.eqb c x) eqn:E.
    - apply String.eqb_eq in E as ->. split; [intros Q; injection Q as ->; auto|]. intros [Q|Q]; [congruence|]. destruct N1. now apply (in_map fst) in Q.
    - apply String.eqb_neq in E. rewrite IH by auto. intuition congruence. }
  assert (F : dict_find table (cmd_name inv) = dict_find table' (cmd_name inv)).
  { apply option_ext. intros v. rewrite !I; [|eapply Permutation_NoDup; [apply Permutation_map, P|auto]|auto].
    split; apply Permutation_in; [exact P|now apply Permutation_sym]. }
  unfold used_for. rewrite F. split; intros (H & x & c & H1 & H2 & H3); (split; [intros y Y; apply H, R, Y|]); exists x, c; rewrite R in * || rewrite <- R in *; auto.
Qed.
Print Assumptions C74_order.

(** A file whose own imports are missing is silently treated as if it did not exist. *)
Theorem C74_broken_silent : forall cls info (run : cls -> invocation -> result info) k p p' table inv,
  (forall m, p m = p' m \/ (not_found p m /\ not_found p' m)) -> answer run k p table inv = answer run k p' table inv.
Proof. intros. unfold answer. rewrite (import_ext p p') by auto. reflexivity. Qed.
Print Assumptions C74_broken_silent.

(** The file name of the guide is never looked at. *)
Theorem C74_documented_file_ignored : forall cls info (run : cls -> invocation -> result info) k p table inv r s,
  (forall r', registered table r' -> r <> "Generator" +++ r') ->
  answer run k (with_module p (documented_module r) s) table inv = answer run k p table inv.
Proof.
  intros cls info run k p table inv r s N. unfold answer. rewrite (import_ext _ p); [reflexivity|].
  intros k' r' R. left. unfold with_module. destruct (String.eqb _ _) eqn:E; [|reflexivity].
  apply String.eqb_eq in E. destruct k'; [discriminate E|]. destruct (N r' R). symmetry.
  exact (sapp_inj_l "pash_annotations.annotation_generation.annotation_generators.ParallelizabilityInfo" _ _ E).
Qed.
Print Assumptions C74_documented_file_ignored.

(** ** The repository *)
Lemma find_module {V} (k : kind) (d : dict V) r :
  find (fun e => String.eqb (module_name k r) (ANNOTATION_GENERATORS +++ "." +++ pre k +++ fst e)) d =
  match dict_find d r with Some v => Some (r, v) | None => None end.
Proof.
  induction d as [|(x & v) d IH]; [reflexivity|]. cbn [find dict_find fst]. rewrite module_pre.
  destruct (String.eqb r x) eqn:E.
  - apply String.eqb_eq in E as ->. now rewrite String.eqb_refl.
  - destruct (String.eqb (module_name k r) (module_name k x)) eqn:F; [|exact IH].
    apply String.eqb_eq, module_inj in F as (_ & ->). now rewrite String.eqb_refl in E.
Qed.
Lemma find_other {V} (k k' : kind) (d : dict V) r : k <> k' ->
  find (fun e => String.eqb (module_name k r) (ANNOTATION_GENERATORS +++ "." +++ pre k' +++ fst e)) d = None.
Proof.
  intros N. induction d as [|(x & v) d IH]; [reflexivity|]. cbn [find fst]. rewrite module_pre.
  destruct (String.eqb _ _) eqn:F; [|exact IH]. apply String.eqb_eq, module_inj in F as (F & _). contradiction.
Qed.
Lemma modules_io r : repository_modules (module_name InputOutput r) =
  match dict_find io_generator_classes r with Some g => Present [(class_name InputOutput r, IOClass g)] | None => Absent end.
Proof.
  unfold repository_modules. change IO_PREFIX with (pre InputOutput). change PARA_PREFIX with (pre Parallelizability).
  rewrite find_module, find_other by discriminate. destruct (dict_find _ r); reflexivity.
Qed.
Lemma modules_para r : repository_modules (module_name Parallelizability r) =
  match dict_find para_generator_classes r with Some g => Present [(class_name Parallelizability r, ParaClass g)] | None => Absent end.
Proof.
  unfold repository_modules. change IO_PREFIX with (pre InputOutput). change PARA_PREFIX with (pre Parallelizability).
  rewrite find_module, find_other by discriminate. destruct (dict_find _ r); reflexivity.
Qed.
Lemma repository_imports : exists g, import_generators repository_modules cmd_representation = Imported g.
Proof.
  apply import_ok. intros r R. split.
  - apply registered_iff in R. apply (name_chars_iff InputOutput).
    assert (H : forallb (fun r => name_chars (class_name InputOutput r)) (map snd cmd_representation) = true) by (vm_compute; reflexivity).
    rewrite forallb_forall in H. auto.
  - intros [].
    + unfold tolerated, not_found, class_in. rewrite modules_io. destruct (dict_find _ r) as [g|]; [right|now left; left].
      eexists. eexists. split; [reflexivity|]. cbn [dict_find]. now rewrite String.eqb_refl.
    + unfold tolerated, not_found, class_in. rewrite modules_para. destruct (dict_find _ r) as [g|]; [right|now left; left].
      eexists. eexists. split; [reflexivity|]. cbn [dict_find]. now rewrite String.eqb_refl.
Qed.
Lemma used_registered table cmd r : used_for table cmd r -> registered table r \/ r = "None".
Proof.
  intros [U|(_ & ->)]; [left|now right]. exists cmd. now apply dict_find_In.
Qed.

(** For the files of the repository the registry gives what the model of the two functions says
    (C01-C73 are about those). *)
Theorem C74_repository : forall dir inv,
  (exists g, import_generators repository_modules cmd_representation = Imported g) /\
  answer (run_io dir) InputOutput repository_modules cmd_representation inv = get_input_output_info dir inv /\
  answer (run_para dir) Parallelizability repository_modules cmd_representation inv = get_parallelizability_info dir inv.
Proof.
  intros dir inv. split; [apply repository_imports|]. assert (U0 : used_for cmd_representation (cmd_name inv) (representation_of (cmd_name inv))) by now apply repr_used.
  split; apply option_ext; intros i; rewrite answer_iff.
  - unfold get_input_output_info, dict_get. split.
    + intros (_ & r & c & U & _ & C & Q). apply repr_used in U. change (representation_of (cmd_name inv) = r) in U. rewrite U.
      destruct C as (n & P & F). rewrite modules_io in P. destruct (dict_find io_generator_classes r) as [g|]; [|discriminate].
      injection P as <-. cbn [dict_find] in F. rewrite String.eqb_refl in F. injection F as <-. simpl in Q |- *. rewrite Q. reflexivity.
    + intros Q. split; [apply repository_imports|]. destruct (dict_find io_generator_classes (representation_of (cmd_name inv))) as [g|] eqn:D; [|discriminate].
      exists (representation_of (cmd_name inv)), (IOClass g). split; [exact U0|]. split.
      { destruct (used_registered _ _ _ U0) as [R|R]; [exact R|]. rewrite R in D. discriminate D. }
      split.
      { eexists. rewrite modules_io, D. split; [reflexivity|]. cbn [dict_find]. now rewrite String.eqb_refl. }
      simpl in Q |- *. destruct (let! i0 := _ in _); simpl in Q; [congruence|discriminate].
  - unfold get_parallelizability_info, dict_get. split.
    + intros (_ & r & c & U & _ & C & Q). apply repr_used in U. change (representation_of (cmd_name inv) = r) in U. rewrite U.
      destruct C as (n & P & F). rewrite modules_para in P. destruct (dict_find para_generator_classes r) as [g|]; [|discriminate].
      injection P as <-. cbn [dict_find] in F. rewrite String.eqb_refl in F. injection F as <-. simpl in Q |- *. rewrite Q. reflexivity.
    + intros Q. split; [apply repository_imports|]. destruct (dict_find para_generator_classes (representation_of (cmd_name inv))) as [g|] eqn:D; [|discriminate].
      exists (representation_of (cmd_name inv)), (ParaClass g). split; [exact U0|]. split.
      { destruct (used_registered _ _ _ U0) as [R|R]; [exact R|]. rewrite R in D. discriminate D. }
      split.
      { eexists. rewrite modules_para, D. split; [reflexivity|]. cbn [dict_find]. now rewrite String.eqb_refl. }
      simpl in Q |- *. destruct (g dir inv new_para_info); simpl in Q; [congruence|discriminate].
Qed.
Print Assumptions C74_repository.

(** So adding a command to the repository leaves what C01-C73 say about all others. *)
Theorem C74_adding : forall p l1 l2 cmd r dir inv,
  cmd_representation = l1 ++ l2 -> agree_on repository_modules p cmd_representation ->
  plain_name r -> (forall k, tolerated p k r) -> r <> "None" -> cmd_name inv <> cmd ->
  answer (run_io dir) InputOutput p (l1 ++ (cmd, r) :: l2) inv = get_input_output_info dir inv /\
  answer (run_para dir) Parallelizability p (l1 ++ (cmd, r) :: l2) inv = get_parallelizability_info dir inv.
Proof.
  intros p l1 l2 cmd r dir inv E A N T NN C. destruct (C74_repository dir inv) as (I & R1 & R2). rewrite <- R1, <- R2.
  assert (I' : exists g, import_generators p (l1 ++ (cmd, r) :: l2) = Imported g).
  { apply C74_import_added. split; [|auto]. rewrite <- E. destruct I as (g & I). exists g. rewrite <- I. symmetry. apply import_ext. intros k x R. left. auto. }
  rewrite E in *. split; apply C74_others; auto.
Qed.
Print Assumptions C74_adding.

(** ** config/definitions.py *)
(** The second table knows all commands of the first but awk and wc, with the same names. *)
Theorem C74_config_table : forall cmd,
  dict_find config_table cmd = if mem cmd ["awk"; "wc"] then None else dict_find cmd_representation cmd.
Proof.
  intros cmd. destruct (mem cmd (map fst cmd_representation)) eqn:M.
  - unfold mem in M. apply existsb_exists in M as (x & I & E). apply String.eqb_eq in E as <-.
    assert (H : forallb (fun c => match dict_find config_table c, (if mem c ["awk"; "wc"] then None else dict_find cmd_representation c) with
                                  | Some a, Some b => String.eqb a b | None, None => true | _, _ => false end) (map fst cmd_representation) = true) by (vm_compute; reflexivity).
    rewrite forallb_forall in H. specialize (H _ I). destruct (dict_find config_table cmd), (if mem cmd ["awk"; "wc"] then None else _); try discriminate; [|reflexivity].
    apply String.eqb_eq in H. congruence.
  - assert (F : forall (d : dict string), (forall x, In x (map fst d) -> In x (map fst cmd_representation)) -> dict_find d cmd = None).
    { intros d S. destruct (dict_find d cmd) as [v|] eqn:D; [|reflexivity]. apply dict_find_In, (in_map fst), S in D. simpl in D.
      exfalso. unfold mem in M. assert (existsb (String.eqb cmd) (map fst cmd_representation) = true) by (apply existsb_exists; exists cmd; split; [auto|apply String.eqb_refl]). congruence. }
    rewrite F.
    + destruct (mem cmd ["awk"; "wc"]); [reflexivity|]. rewrite F; auto.
    + assert (H : forallb (fun x => mem x (map fst cmd_representation)) (map fst config_table) = true) by (vm_compute; reflexivity).
      rewrite forallb_forall in H. intros x I. apply H in I. unfold mem in I. apply existsb_exists in I as (y & I & E). apply String.eqb_eq in E as ->. exact I.
Qed.
Print Assumptions C74_config_table.
(** Its functions that return classes raise for every table with an entry. *)
Theorem C74_config_classes_refuted : forall k table,
  module_dict (match k with InputOutput => IO_PREFIX | Parallelizability => PARA_PREFIX end) table <> None <-> table = [].
Proof.
  intros k [|(c & r) table]; [split; [auto|discriminate]|]. cbn [module_dict]. fold (pre k). rewrite not_config. split; [intros H; now contradiction H|discriminate].
Qed.
Print Assumptions C74_config_classes_refuted.
(** The modules it lists are never those that AnnotationGeneration imports. *)
Theorem C74_config_modules_refuted : forall k k' table table' m c m' c',
  In (m, c) (file_module_names config_ANNOTATION_GENERATORS (pre k) table) -> In (m', c') (file_module_names ANNOTATION_GENERATORS (pre k') table') -> m <> m'.
Proof.
  intros k k' table table' m c m' c' I I' ->. unfold file_module_names in *. apply in_map_iff in I as (e & E & _), I' as (e' & E' & _).
  injection E as E _. injection E' as E' _. rewrite <- E' in E. discriminate E.
Qed.
Print Assumptions C74_config_modules_refuted.

(** ** Data files *)
Lemma same_json dir dir' x name : same_but dir dir' x -> x <> "_default_data_for_commands" -> name <> x ->
  get_json_data dir' name = get_json_data dir name.
Proof.
  intros S D N. unfold get_json_data. rewrite (S (name +++ ".json")); [|intros E; now apply sapp_inj_r in E].
  destruct (dir (name +++ ".json")); auto. rewrite (S "_default_data_for_commands.json"); [reflexivity|].
  intros E. apply D. symmetry. now apply (sapp_inj_r _ _ ".json").
Qed.
Lemma same_parse dir dir' x text : same_but dir dir' x -> x <> "_default_data_for_commands" ->
  (forall words, shlex_split text <> Ok (x :: words)) -> parse dir' text = parse dir text.
Proof.
  intros S D N. unfold parse. destruct (shlex_split text) as [[|name words]|e] eqn:E; try reflexivity.
  simpl. rewrite (same_json dir dir' x); auto. intros ->. exact (N _ eq_refl).
Qed.
(** A new or changed data file concerns the lines that begin with the command only, unless it is
    the one with the defaults or the data of a command that a custom mapper parses. *)
Theorem C74_data : forall dir dir' x, same_but dir dir' x -> x <> "_default_data_for_commands" ->
  (forall text, (forall words, shlex_split text <> Ok (x :: words)) -> parse dir' text = parse dir text) /\
  (forall inv, cmd_name inv <> x -> get_input_output_info dir' inv = get_input_output_info dir inv) /\
  (forall inv, ~ In x ["alt_bigrams_aux"; "bigram_aux_map"] -> get_parallelizability_info dir' inv = get_parallelizability_info dir inv).
Proof.
  intros dir dir' x S D. split; [intros; now apply (same_parse dir dir' x)|]. split.
  - intros inv N. unfold get_input_output_info, init_io_info, get_flagoption_list_typer, get_dict_option_to_class_for_arg.
    now rewrite (same_json dir dir' x).
  - intros inv N. unfold get_parallelizability_info, dict_get. destruct (dict_find _ _) as [g|] eqn:F; [|reflexivity].
    apply dict_find_In in F. assert (G : forall i, g dir' inv i = g dir inv i); [|simpl; now rewrite G].
    assert (M : forall s b, In s ["alt_bigrams_aux"; "bigram_aux_map"] -> make_mapper_spec_custom_from_string dir' s b = make_mapper_spec_custom_from_string dir s b).
    { intros s b I. unfold make_mapper_spec_custom_from_string. rewrite (same_parse dir dir' x); auto.
      intros words E. apply N. simpl in I. destruct I as [<-|[<-|[]]]; vm_compute in E; injection E as <- _; simpl; auto. }
    unfold para_generator_classes in F. cbn [In] in F. repeat (destruct F as [F|F]; [injection F as _ <-; intros i; unfold pg_alt_bigrams_aux, pg_bigrams_aux; rewrite ?M by (simpl; auto); reflexivity|]).
    destruct F.
Qed.
Print Assumptions C74_data.

(** ** Cases *)
(** A package with a command cat-wrapper added to the repository, whose files are those the code
    wants, with a class that behaves like cat *)
Definition wrapper_inv : invocation := mkInv "cat-wrapper" [] [].
Definition wrapper_package : package generator_class :=
  with_module repository_modules (module_name InputOutput "CatWrapper") (Present [("InputOutputInfoGeneratorCatWrapper", IOClass io_cat)]).
Example C74_adding_case :
  agree_on repository_modules wrapper_package cmd_representation /\ plain_name "CatWrapper" /\ (forall k, tolerated wrapper_package k "CatWrapper") /\
  answer (run_io shipped_dir) InputOutput wrapper_package (cmd_representation ++ [("cat-wrapper", "CatWrapper")]) wrapper_inv <> None /\
  get_input_output_info shipped_dir wrapper_inv = None.
Proof.
  split; [|split; [|split; [|split; [vm_compute; discriminate|vm_compute; reflexivity]]]].
  - intros r k R. unfold wrapper_package, with_module. destruct (String.eqb _ _) eqn:E; [|reflexivity].
    apply String.eqb_eq, module_inj in E as (_ & ->). apply registered_iff in R. cbn in R. intuition discriminate.
  - apply (name_chars_iff InputOutput). vm_compute. reflexivity.
  - intros []; [right|left; left; vm_compute; reflexivity]. exists (IOClass io_cat). eexists. split; vm_compute; reflexivity.
Qed.
(** With the file of the guide the parallelizability class is not found. *)
Example C74_documented_case :
  let p := with_module wrapper_package (documented_module "CatWrapper") (Present [("ParallelizabilityInfoCatWrapper", ParaClass pg_stateless)]) in
  answer (run_para shipped_dir) Parallelizability p (cmd_representation ++ [("cat-wrapper", "CatWrapper")]) wrapper_inv = None /\
  forall r, registered (cmd_representation ++ [("cat-wrapper", "CatWrapper")]) r -> "CatWrapper" <> "Generator" +++ r.
Proof. split; [vm_compute; reflexivity|]. intros r _. discriminate. Qed.
(** A misspelt class name stops the package: grep has nothing then. *)
Example C74_one_bad_file_case :
  let p := with_module repository_modules (module_name InputOutput "CatWrapper") (Present [("InputOutputInfoGeneratorCat_Wrapper", IOClass io_cat)]) in
  import_generators p (cmd_representation ++ [("cat-wrapper", "CatWrapper")]) = ImportFails ImportError /\
  answer (run_io shipped_dir) InputOutput p (cmd_representation ++ [("cat-wrapper", "CatWrapper")]) (mkInv "grep" [] ["x"]) = None /\
  get_input_output_info shipped_dir (mkInv "grep" [] ["x"]) <> None.
Proof. split; [vm_compute; reflexivity|split; [vm_compute; reflexivity|vm_compute; discriminate]]. Qed.
(** A representation None answers for a command nobody registered. *)
Example C74_none_case :
  let p := with_module repository_modules (module_name InputOutput "None") (Present [("InputOutputInfoGeneratorNone", IOClass io_cat)]) in
  answer (run_io shipped_dir) InputOutput p (cmd_representation ++ [("none", "None")]) (mkInv "anything" [] ["x"]) <> None /\
  get_input_output_info shipped_dir (mkInv "anything" [] ["x"]) = None.
Proof. split; vm_compute; [discriminate|reflexivity]. Qed.
(** A file of the repository whose imports are broken: sort has nothing, and nobody is told. *)
Example C74_broken_case :
  let p := with_module repository_modules (module_name Parallelizability "Sort") Broken in
  answer (run_para shipped_dir) Parallelizability p cmd_representation (mkInv "sort" [] []) = None /\
  get_parallelizability_info shipped_dir (mkInv "sort" [] []) <> None.
Proof. split; vm_compute; [reflexivity|discriminate]. Qed.
(** The two exceptions of the theorem about data files *)
Example C74_data_case :
  let bad x := fun f => if String.eqb f (x +++ ".json") then FError ValueError else shipped_dir f in
  (forall x, same_but shipped_dir (bad x) x) /\
  parse (bad "_default_data_for_commands") "unknown a" <> parse shipped_dir "unknown a" /\
  get_parallelizability_info (bad "bigram_aux_map") (mkInv "bigrams_aux" [] []) <> get_parallelizability_info shipped_dir (mkInv "bigrams_aux" [] []) /\
  parse (bad "grep") "sort a" = parse shipped_dir "sort a" /\ parse (bad "grep") "grep a" <> parse shipped_dir "grep a".
Proof.
  split; [intros x f N; destruct (String.eqb f (x +++ ".json")) eqn:E; [apply String.eqb_eq in E; contradiction|reflexivity]|].
  split; [vm_compute; discriminate|]. split; [vm_compute; discriminate|]. split; vm_compute; [reflexivity|discriminate].
Qed.
(** Both orders of a table of two commands *)
Example C74_order_case : NoDup (map fst [("grep", "Grep"); ("cat", "Cat")]) /\
  answer (run_io shipped_dir) InputOutput repository_modules [("cat", "Cat"); ("grep", "Grep")] (mkInv "grep" [] ["x"]) <> None.
Proof. split; [|vm_compute; discriminate]. repeat constructor; simpl; intuition discriminate. Qed.
