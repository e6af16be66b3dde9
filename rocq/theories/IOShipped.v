(** * Which invocations have input/output information *)
Require Import Verif.PyBase Verif.JsonData Verif.Parser Verif.Access Verif.IOInfo Verif.IOGen Verif.ShippedData
  Verif.SpecParser Verif.SpecIO Verif.ParserFacts Verif.ParserProps Verif.ShippedFacts Verif.IOFacts Verif.IOProps Verif.IOGeneral.
From Coq Require Import Permutation Lia.

Local Arguments mem : simpl never.

(** ** C15 *)
Lemma declared_as_exists j n : classifiable j ->
  (exists e, In e (j_option j) /\ filed_under e n) -> exists d, declared_as j n d.
Proof.
  unfold classifiable, declared_as. intros C (e & I & U).
  induction (j_option j) as [|x l IH] using rev_ind; [destruct I|].
  assert (Cl : forall e, In e l -> (exists n, filed_under e n) /\ exists d, declares e d)
    by (intros; apply C; apply in_or_app; auto).
  assert (D : {filed_under x n} + {~ filed_under x n}).
  { unfold filed_under. destruct (oe_names x); [|apply string_dec].
    destruct (oe_arg x) as [s|l']; [|right; discriminate].
    destruct (string_dec s n) as [->|N]; [left; reflexivity|right; congruence]. }
  destruct D as [D|D].
  - destruct (C x) as [_ [d Hd]]; [apply in_or_app; right; left; reflexivity|].
    exists d, l, x, []. repeat split; auto.
  - apply in_app_or in I. destruct I as [I|[<-|[]]]; [|contradiction].
    destruct (IH Cl I) as (d & pre & e' & post & -> & U' & D' & N).
    exists d, pre, e', (post ++ [x]). split; [rewrite <- app_assoc; reflexivity|].
    repeat split; auto. intros e2 I2. apply in_app_or in I2 as [I2|[<-|[]]]; auto.
Qed.

Lemma option_arg_total d s : exists x, option_arg_io d s x.
Proof.
  destruct d as [a|]; [|eexists; constructor].
  eexists. apply oa_file. now apply denotes_iff.
Qed.

Lemma names_classified dir inv j : loads dir (cmd_name inv) j -> classifiable j ->
  (forall n s, In (Option_ n s) (flag_option_list inv) -> exists e, In e (j_option j) /\ filed_under e n) ->
  exists fos, options_classified dir inv fos.
Proof.
  intros L C H. unfold options_classified.
  assert (X : exists fos, Forall2 (fo_classified j) (flag_option_list inv) fos).
  { induction (flag_option_list inv) as [|fo l IH]; [exists []; constructor|].
    destruct IH as [fos F]; [intros; apply (H n s); right; assumption|].
    destruct fo as [n|n s].
    - exists (FlagIO n :: fos). constructor; [constructor|exact F].
    - destruct (declared_as_exists j n C (H n s (or_introl eq_refl))) as [d D].
      destruct (option_arg_total d s) as [x X]. exists (OptionIO n x :: fos).
      constructor; [econstructor; eauto|exact F]. }
  destruct X as [fos F]. exists fos, j. auto.
Qed.

Lemma parsed_classified dir s inv j : parse dir s = Ok inv -> loads dir (cmd_name inv) j -> classifiable j ->
  exists fos, options_classified dir inv fos.
Proof.
  intros P L C. eapply names_classified; eauto. intros n a I.
  destruct (parse_declared _ _ _ _ _ P L I) as (e & others & He & E). exists e. split; [exact He|].
  unfold filed_under. rewrite E. reflexivity.
Qed.

Definition classifiable_b (j : json_data) : bool :=
  forallb (fun e => match option_class e with Ok _ => true | Raise _ => false end) (j_option j).
Lemma classifiable_b_spec j : classifiable_b j = true -> classifiable j.
Proof.
  unfold classifiable_b, classifiable. rewrite forallb_forall. intros H e I. specialize (H e I).
  destruct (option_class e) as [[n t]|] eqn:E; [|discriminate].
  apply option_class_iff in E as (U & d & D & _). eauto.
Qed.
Lemma shipped_classifiable_all : forallb (fun p => classifiable_b (snd p)) shipped_table = true.
Proof. vm_compute. reflexivity. Qed.
Lemma shipped_classifiable name j : loads shipped_dir name j -> classifiable j.
Proof.
  intros L. apply shipped_loads in L as [L|[_ ->]].
  - apply classifiable_b_spec. pose proof shipped_classifiable_all as F. rewrite forallb_forall in F. apply (F _ L).
  - apply classifiable_b_spec. vm_compute. reflexivity.
Qed.

Lemma NoDup_flat_map_unique {A} (f : A -> list string) l x e e' :
  NoDup (flat_map f l) -> In e l -> In e' l -> In x (f e) -> In x (f e') -> e = e'.
Proof.
  induction l as [|y l IH]; cbn; intros N I I' X X'; [destruct I|].
  destruct I as [<-|I], I' as [<-|I']; auto.
  - exfalso. eapply (NoDup_app_disjoint _ _ x N); [exact X|]. apply in_flat_map. eauto.
  - exfalso. eapply (NoDup_app_disjoint _ _ x N); [exact X'|]. apply in_flat_map. eauto.
  - apply IH; auto. eapply NoDup_app_r; exact N.
Qed.

Lemma shipped_as_listed s inv : parse shipped_dir s = Ok inv ->
  exists j fos, loads shipped_dir (cmd_name inv) j /\ options_classified shipped_dir inv fos /\
    Forall2 (as_listed j) (flag_option_list inv) fos.
Proof.
  intros P. destruct (shipped_always_loads (cmd_name inv)) as [j L].
  destruct (parsed_classified _ _ _ _ P L (shipped_classifiable _ _ L)) as [fos F].
  exists j, fos. split; [exact L|]. split; [exact F|].
  destruct F as (j' & L' & C & F). pose proof (loads_fun _ _ _ _ L L'); subst j'.
  destruct (shipped_options_unambiguous _ _ L) as [U _].
  assert (D : forall n a, In (Option_ n a) (flag_option_list inv) ->
                exists e others, In e (j_option j) /\ oe_names e = n :: others).
  { intros n a I. apply (parse_declared _ _ _ _ _ P L I). }
  clear P. revert D. induction F as [|fo fio l l' H F IH]; intros D; [constructor|].
  constructor; [|apply IH; intros n a I; apply (D n a); right; exact I].
  inversion H as [n|n a d x (pre & e & post & E & FU & De & Last) O]; subst; [constructor|].
  destruct (D n a (or_introl eq_refl)) as (e0 & others & I0 & E0).
  assert (Ie : In e (j_option j)) by (rewrite E; apply in_elt).
  assert (N : In n (oe_names e)).
  { unfold filed_under in FU. destruct (oe_names e) as [|m ms] eqn:En; [|left; congruence].
    (* the first-named entry lies at or before the last one filed under n *)
    exfalso. rewrite E in I0. apply in_app_or in I0. 
    assert (forallb (fun e => nonempty (oe_names e)) (j_option j) = true -> False).
    { intros Q. rewrite forallb_forall in Q. specialize (Q e Ie). rewrite En in Q. discriminate. }
    apply H0. clear -L. apply shipped_loads in L as [L|[_ ->]]; [|vm_compute; reflexivity].
    assert (Q : forallb (fun p => forallb (fun e => nonempty (oe_names e)) (j_option (snd p))) shipped_table = true)
      by (vm_compute; reflexivity).
    rewrite forallb_forall in Q. apply (Q _ L). }
  assert (Un : forall e', In e' (j_option j) -> In n (oe_names e') -> e' = e).
  { intros e' I' N'. eapply NoDup_flat_map_unique; eauto. }
  inversion O as [|acc ? el Dn]; subst.
  - eapply al_string; eauto.
  - eapply al_file; eauto.
Qed.

(** ** C16 *)
Lemma with_io_some dir inv : (exists c, with_io dir inv c) <-> get_input_output_info dir inv <> None.
Proof.
  split.
  - intros (c & i & H & _). congruence.
  - intros H. destruct (get_input_output_info dir inv) as [i|] eqn:E; [|congruence].
    destruct (info_applies _ _ _ E) as [c A]. exists c, i. auto.
Qed.

Lemma generator_none inv : generator_of inv = None <-> ~ In (cmd_name inv) io_commands.
Proof.
  unfold generator_of. generalize (cmd_name inv) as s. intros s.
  assert (X : forall s r, In (s, r) cmd_representation ->
            (dict_find io_generator_classes r = None <-> ~ In s io_commands)).
  { assert (B : forallb (fun p => Bool.eqb (match dict_find io_generator_classes (snd p) with None => true | _ => false end)
                                 (negb (mem (fst p) io_commands))) cmd_representation = true) by (vm_compute; reflexivity).
    rewrite forallb_forall in B. intros s' r I. specialize (B _ I). cbn [fst snd] in B. apply Bool.eqb_prop in B.
    rewrite <- mem_not_In. destruct (dict_find io_generator_classes r), (mem s' io_commands); cbn in B; split; congruence. }
  unfold representation_of, dict_get_default.
  destruct (dict_find cmd_representation s) as [r|] eqn:E.
  - apply X. now apply dict_find_In.
  - split; [|intros _; reflexivity]. intros _ I.
    assert (B : forallb (fun n => match dict_find cmd_representation n with Some _ => true | None => false end) io_commands = true)
      by (vm_compute; reflexivity).
    rewrite forallb_forall in B. specialize (B s I). rewrite E in B. discriminate.
Qed.

Lemma shape_exists dir inv xs a b : (exists fos, options_classified dir inv fos) ->
  exists c, shape dir inv c xs /\ io_implicit_input c = a /\ io_implicit_output c = b.
Proof.
  intros [fos F]. exists (mkInvIO (cmd_name inv) fos xs a b). repeat split; cbn; auto.
Qed.
Lemma shape_classified dir inv c xs : shape dir inv c xs -> exists fos, options_classified dir inv fos.
Proof. intros (_ & H & _). eauto. Qed.
Lemma stdin_dec P : {P} + {~ P} -> exists a, forall c, io_implicit_input c = a -> stdin_iff c P.
Proof. intros [H|H]; [exists (Some stdin)|exists None]; intros c E; unfold stdin_iff; auto. Qed.
Lemma stdout_dec P : {P} + {~ P} -> exists a, forall c, io_implicit_output c = a -> stdout_iff c P.
Proof. intros [H|H]; [exists (Some stdout)|exists None]; intros c E; unfold stdout_iff; auto. Qed.
Lemma uses_dec inv n : {uses inv n} + {~ uses inv n}.
Proof.
  destruct (contains_one_of inv [n]) eqn:E; [left; now apply contains1|right; now apply contains1_false].
Defined.
Lemma exists_shape dir inv xs P Q : {P} + {~ P} -> {Q} + {~ Q} -> (exists fos, options_classified dir inv fos) ->
  exists c, shape dir inv c xs /\ stdin_iff c P /\ stdout_iff c Q.
Proof.
  intros DP DQ F. destruct (stdin_dec P DP) as [a A], (stdout_dec Q DQ) as [b B].
  destruct (shape_exists dir inv xs a b F) as (c & S & E1 & E2). exists c. auto.
Qed.
Lemma nil_dec (l : list string) : {l = []} + {~ l = []}.
Proof. destruct l; [left; reflexivity|right; discriminate]. Defined.
Lemma dec_and {P Q} : {P} + {~ P} -> {Q} + {~ Q} -> {P /\ Q} + {~ (P /\ Q)}.
Proof. tauto. Defined.
Lemma dec_or {P Q} : {P} + {~ P} -> {Q} + {~ Q} -> {P \/ Q} + {~ (P \/ Q)}.
Proof. tauto. Defined.
Lemma dec_not {P} : {P} + {~ P} -> {~ P} + {~ ~ P}.
Proof. tauto. Defined.
Definition dec_true : {True} + {~ True} := left I.
Definition dec_false : {False} + {~ False} := right (fun f => f).

Ltac dec := repeat first [apply uses_dec | apply nil_dec | apply Nat.eq_dec | apply dec_true | apply dec_false
                         | apply dec_and | apply dec_or | apply dec_not ].

Section rules.
  Variables (dir : data_dir) (inv : invocation).
  Notation classified := (exists fos, options_classified dir inv fos).
  Notation informed := (exists c, with_io dir inv c).
  Notation n := (length (operand_list inv)).

  Ltac always L := intros G; setoid_rewrite (fun c => L dir inv c G); split;
    [intros (c & S & _); eapply shape_classified; exact S
    |intros F; apply exists_shape; [dec|dec|exact F]].

  Lemma rule_cat : generator_of inv = Some io_cat -> (informed <-> classified).
  Proof. always spec_cat. Qed.
  Lemma rule_sort : generator_of inv = Some io_sort -> (informed <-> classified).
  Proof. always spec_sort. Qed.
  Lemma rule_stdin_stdout : generator_of inv = Some io_stdin_stdout -> (informed <-> classified).
  Proof. always spec_stdin_stdout. Qed.
  Lemma rule_alt_reduce : generator_of inv = Some io_alt_bigram_aux_reduce -> (informed <-> classified).
  Proof. always spec_alt_reduce. Qed.
  Lemma rule_diff : generator_of inv = Some io_diff -> (informed <-> classified).
  Proof. always spec_diff. Qed.
  Lemma rule_tr : generator_of inv = Some io_tr -> (informed <-> classified).
  Proof. always spec_tr. Qed.
  Lemma rule_xargs : generator_of inv = Some io_xargs -> (informed <-> classified).
  Proof. always spec_xargs. Qed.
  Lemma rule_seq : generator_of inv = Some io_seq -> (informed <-> classified).
  Proof. always spec_seq. Qed.
  Lemma rule_rm : generator_of inv = Some io_rm -> (informed <-> classified).
  Proof. always spec_rm. Qed.
  Lemma rule_tee : generator_of inv = Some io_tee -> (informed <-> classified).
  Proof. always spec_tee. Qed.

  Ltac sometimes L := intros G; setoid_rewrite (fun c => L dir inv c G); split;
    [intros (c & R & S & _); split; [exact R|eapply shape_classified; exact S]
    |intros [R F]; edestruct exists_shape as (c & S); [| |exact F|exists c; split; [exact R|exact S]]; dec].
  Lemma rule_wc : generator_of inv = Some io_wc -> (informed <-> ~ uses inv "--files0-from" /\ classified).
  Proof. sometimes spec_wc. Qed.
  Lemma rule_comm : generator_of inv = Some io_comm -> (informed <-> n = 2 /\ classified).
  Proof. sometimes spec_comm. Qed.
  Lemma rule_set_diff : generator_of inv = Some io_set_diff -> (informed <-> n = 1 /\ classified).
  Proof. sometimes spec_set_diff. Qed.

  Lemma script_exists P (D : {P} + {~ P}) : (exists xs, script_operand P (operand_list inv) xs) <-> P \/ n >= 1.
  Proof.
    unfold script_operand. split.
    - intros (xs & [[H _]|[_ (o & l & -> & _)]]); [auto|cbn; right; lia].
    - destruct D as [D|D]; [intros _; eexists; left; eauto|].
      intros [H|H]; [tauto|]. destruct (operand_list inv) as [|o l]; [cbn in H; lia|].
      eexists. right. eauto 6.
  Qed.
  Ltac script L P := intros G; cbn zeta; setoid_rewrite (fun c => L dir inv c G); split;
    [intros (c & xs & X & S & _); split; [apply (script_exists P); [dec|eauto]|eapply shape_classified; exact S]
    |intros [R F]; apply (script_exists P) in R as [xs X]; [|dec];
     edestruct exists_shape as (c & S); [| |exact F|exists c, xs; split; [exact X|exact S]]; dec].
  Lemma rule_awk : generator_of inv = Some io_awk -> (informed <-> (uses inv "-f" \/ n >= 1) /\ classified).
  Proof. script spec_awk (uses inv "-f"). Qed.
  Lemma rule_grep : generator_of inv = Some io_grep ->
    (informed <-> ((uses inv "-e" \/ uses inv "-f") \/ n >= 1) /\ classified).
  Proof. script spec_grep (uses inv "-e" \/ uses inv "-f"). Qed.
  Lemma rule_sed : generator_of inv = Some io_sed ->
    (informed <-> ((uses inv "-e" \/ uses inv "-f") \/ n >= 1) /\ classified).
  Proof. script spec_sed (uses inv "-e" \/ uses inv "-f"). Qed.

  Lemma rule_uniq : generator_of inv = Some io_uniq -> (informed <-> n <= 2 /\ classified).
  Proof.
    intros G. setoid_rewrite (fun c => spec_uniq dir inv c G). split.
    - intros (c & [(-> & S & _)|[(f & -> & S & _)|(f & g & -> & S & _)]]); cbn;
        (split; [lia|eapply shape_classified; exact S]).
    - intros [L F]. destruct (operand_list inv) as [|o [|o2 [|o3 l]]] eqn:E.
      + destruct (exists_shape dir inv [] True True dec_true dec_true F) as [c S]. exists c. left. auto.
      + destruct (exists_shape dir inv [in_file STREAM_INPUT o] False True dec_false dec_true F) as [c S].
        exists c. right. left. eauto.
      + destruct (exists_shape dir inv [in_file STREAM_INPUT o; out_file STREAM_OUTPUT o2] False False dec_false dec_false F) as [c S].
        exists c. right. right. eauto.
      + cbn in L. lia.
  Qed.

  Lemma rule_mv : generator_of inv = Some io_mv ->
    (informed <-> (length (uses_of inv "-t") = 1 \/ (~ uses inv "-t" /\ n >= 1)) /\ classified).
  Proof.
    intros G. setoid_rewrite (fun c => spec_mv dir inv c G). split.
    - intros (c & [(l & o & N & E & S)|[L S]] & _).
      + split; [right; split; [exact N|]|eapply shape_classified; exact S]. rewrite E, app_length. cbn. lia.
      + split; [left; exact L|eapply shape_classified; exact S].
    - intros [[L|[N L]] F].
      + destruct (exists_shape dir inv (map (in_file OTHER_INPUT) (operand_list inv)) False False dec_false dec_false F) as [c [S K]].
        exists c. split; [right; auto|exact K].
      + destruct (exists_last (l := operand_list inv)) as (l & o & E); [intros E; rewrite E in L; cbn in L; lia|].
        destruct (exists_shape dir inv (map (in_file OTHER_INPUT) l ++ [out_file OTHER_OUTPUT o]) False False dec_false dec_false F) as [c [S K]].
        exists c. split; [left; eauto 6|exact K].
  Qed.
End rules.


Lemma informed_iff dir inv : In (cmd_name inv) io_commands ->
  ((exists c, with_io dir inv c) <-> rule inv /\ exists fos, options_classified dir inv fos).
Proof.
  intros H. unfold rule.
  assert (A : forall (X Y : Prop), (X <-> Y) -> (X <-> True /\ Y)) by tauto.
  cbn in H.
  repeat (destruct H as [H|H]; [
    rewrite <- H; cbn beta iota;
    first [ apply A, rule_cat; gen_of H | apply A, rule_sort; gen_of H | apply A, rule_stdin_stdout; gen_of H
          | apply A, rule_alt_reduce; gen_of H | apply A, rule_diff; gen_of H | apply A, rule_tr; gen_of H
          | apply A, rule_xargs; gen_of H | apply A, rule_seq; gen_of H | apply A, rule_rm; gen_of H
          | apply A, rule_tee; gen_of H | apply rule_wc; gen_of H | apply rule_comm; gen_of H
          | apply rule_set_diff; gen_of H | apply rule_awk; gen_of H
          | rewrite or_assoc; apply rule_grep; gen_of H | rewrite or_assoc; apply rule_sed; gen_of H
          | rewrite <- or_assoc; apply rule_grep; gen_of H | rewrite <- or_assoc; apply rule_sed; gen_of H
          | apply rule_uniq; gen_of H | apply rule_mv; gen_of H ] |]).
  destruct H.
Qed.

Lemma rule_dec inv : In (cmd_name inv) io_commands -> rule inv \/ ~ rule inv.
Proof.
  intros H. unfold rule. cbn in H.
  assert (S : forall P, {P} + {~ P} -> P \/ ~ P) by tauto.
  repeat (destruct H as [H|H]; [rewrite <- H; cbn beta iota; apply S; dec; first [apply le_dec|apply ge_dec]; fail
    | ] || (destruct H as [H|H]; [rewrite <- H; cbn beta iota; apply S; dec |])).
  destruct H.
Qed.

Lemma none_iff dir inv : get_input_output_info dir inv = None <->
  ~ In (cmd_name inv) io_commands \/ ~ rule inv \/ ~ exists fos, options_classified dir inv fos.
Proof.
  destruct (in_dec string_dec (cmd_name inv) io_commands) as [I|I].
  - pose proof (informed_iff dir inv I) as W. rewrite with_io_some in W.
    rewrite info_none_iff. rewrite <- info_none_iff.
    destruct (get_input_output_info dir inv) as [i|].
    + destruct W as [W _]. destruct W as [R F]; [discriminate|]. split; [discriminate|tauto].
    + split; [|reflexivity]. intros _.
      pose proof (rule_dec inv I) as D.
      destruct D as [D|D]; [|auto]. right. right. intros F. apply W; auto.
  - split; [auto|]. intros _. apply info_none_iff. left. apply generator_none. exact I.
Qed.
