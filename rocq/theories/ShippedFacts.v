Require Import Verif.PyBase Verif.Shlex Verif.JsonData Verif.Parser Verif.ShippedData.
Require Import Verif.SpecShlex Verif.SpecParser Verif.ShlexFacts Verif.ParserFacts Verif.ParserProps.

(** ** Deciding well-formedness of a data file *)
Fixpoint nodup_b (l : list string) : bool :=
  match l with [] => true | x :: l' => negb (mem x l') && nodup_b l' end.
Lemma nodup_b_spec l : nodup_b l = true <-> NoDup l.
Proof.
  induction l as [|x l IH]; simpl.
  - split; [constructor|auto].
  - rewrite andb_true_iff, negb_true_iff, mem_not_In, IH. split.
    + intros [H1 H2]. constructor; auto.
    + intros H. inversion H; auto.
Qed.

Definition is_nonempty_FEList (e : flag_entry) : bool :=
  match e with FEList (_ :: _) => true | _ => false end.
Definition flags_b (j : json_data) : bool :=
  forallb is_nonempty_FEList (j_flag j) && nodup_b (flat_map spellings (j_flag j))
  && negb (mem "" (get_set_of_all_flags j)).
Definition options_b (j : json_data) : bool :=
  forallb (fun e => nonempty (oe_names e)) (j_option j)
  && nodup_b (flat_map oe_names (j_option j)) && negb (mem "" (get_set_of_all_options j)).
Definition wf_b (j : json_data) : bool :=
  flags_b j && options_b j
  && nodup_b (flat_map spellings (j_flag j) ++ flat_map oe_names (j_option j)).

Lemma flags_b_spec j : flags_b j = true ->
  flags_unambiguous j /\ forall e, In e (j_flag j) -> exists l, e = FEList l /\ l <> [].
Proof.
  unfold flags_b. rewrite !andb_true_iff, negb_true_iff, mem_not_In, flags_spec, nodup_b_spec, forallb_forall.
  intros [[H1 H2] H3].
  assert (X : forall e, In e (j_flag j) -> exists l, e = FEList l /\ l <> []).
  { intros e He. apply H1 in He. destruct e as [[|x l]|]; try discriminate.
    exists (x :: l). split; auto; discriminate. }
  split; auto. repeat split; auto. intros e He. destruct (X e He) as (l & E & _). eauto.
Qed.
Lemma options_b_spec j : options_b j = true ->
  options_unambiguous j /\ forall e, In e (j_option j) -> oe_names e <> [].
Proof.
  unfold options_b. rewrite !andb_true_iff, negb_true_iff, mem_not_In, options_spec, nodup_b_spec, forallb_forall.
  intros [[H1 H2] H3]. split; [split; auto|].
  intros e He. apply H1 in He. destruct (oe_names e); discriminate.
Qed.
Lemma wf_b_spec j : wf_b j = true -> well_formed j.
Proof.
  unfold wf_b. rewrite !andb_true_iff, nodup_b_spec. intros [[F O] N].
  apply flags_b_spec in F. apply options_b_spec in O.
  destruct F as [(F1 & F2 & F3) F4]. destruct O as [(O1 & O2) O3].
  repeat split; auto. intros w [H|H] ->; auto.
Qed.

(** ** The shipped files *)
Definition shipped_ok (p : string * json_data) : bool :=
  (String.eqb (fst p) "uniq.json" || String.eqb (fst p) "mv.json" || wf_b (snd p))
  && (String.eqb (fst p) "uniq.json" || flags_b (snd p))
  && options_b (snd p).

Lemma shipped_ok_all : forallb shipped_ok shipped_table = true.
Proof. vm_compute. reflexivity. Qed.

Lemma shipped_cases fn j : In (fn, j) shipped_table ->
  (fn <> "uniq.json" -> fn <> "mv.json" -> well_formed j) /\
  (fn <> "uniq.json" -> flags_unambiguous j /\ forall e, In e (j_flag j) -> exists l, e = FEList l /\ l <> []) /\
  (options_unambiguous j /\ forall e, In e (j_option j) -> oe_names e <> []).
Proof.
  intros H. assert (X := proj1 (forallb_forall _ _) shipped_ok_all _ H).
  unfold shipped_ok in X. cbn [fst snd] in X. rewrite !andb_true_iff in X.
  destruct X as [[X1 X2] X3]. split; [|split].
  - intros N1 N2. apply String.eqb_neq in N1, N2. rewrite N1, N2 in X1. apply wf_b_spec; auto.
  - intros N1. apply String.eqb_neq in N1. rewrite N1 in X2. apply flags_b_spec; auto.
  - apply options_b_spec; auto.
Qed.

Lemma dict_find_In {V} (d : dict V) k v : dict_find d k = Some v -> In (k, v) d.
Proof.
  induction d as [|[k' v'] d IH]; simpl; [discriminate|].
  destruct (String.eqb k k') eqn:E; intros H.
  - apply String.eqb_eq in E. injection H as <-. subst. auto.
  - auto.
Qed.

Lemma shipped_loads name j : loads shipped_dir name j ->
  In (name +++ ".json", j) shipped_table \/
  (dict_find shipped_table (name +++ ".json") = None /\ j = data_default_data_for_commands).
Proof.
  unfold loads, shipped_dir. destruct (dict_find shipped_table (name +++ ".json")) as [j'|] eqn:E.
  - intros [H|[H _]]; [|discriminate]. injection H as ->. left. apply dict_find_In; auto.
  - intros [H|[_ H]]; [discriminate|]. right. split; auto. vm_compute in H. injection H as <-. reflexivity.
Qed.

Lemma shipped_always_loads name : exists j, loads shipped_dir name j.
Proof.
  unfold loads, shipped_dir. destruct (dict_find shipped_table (name +++ ".json")) as [j|].
  - eauto.
  - exists data_default_data_for_commands. auto.
Qed.

(** ** C12: written declarations *)
Lemma written_flag_group j w p rest :
  flags_unambiguous j -> written_flag j w p -> group j (w :: rest) [Flag p] rest.
Proof.
  intros (L & ND & NE) [(others & He & Hw)|[He _]].
  - assert (D : flag_declared j w) by (exists (FEList (p :: others)); auto).
    apply group_flag; auto.
    + intros ->. auto.
    + eapply flag_canonical_in_entry; eauto.
  - apply L in He. destruct He as (l & He). discriminate.
Qed.
Lemma written_option_group j w p arg rest :
  options_unambiguous j -> ~ flag_declared j w -> written_option j w p ->
  group j (w :: arg :: rest) [Option_ p arg] rest.
Proof.
  intros (ND & NE) NF (e & others & He & En & Hw).
  assert (D : option_declared j w) by (exists e; rewrite En; auto).
  apply group_option; auto.
  - intros ->. auto.
  - eapply option_canonical_in_entry; eauto.
Qed.
Lemma declared_written j w :
  flags_unambiguous j -> flag_declared j w -> exists p, written_flag j w p.
Proof.
  intros (L & _) (e & He & Hw). destruct (L e He) as (l & ->). simpl in Hw.
  destruct l as [|p others]; [destruct Hw|]. exists p. left. eauto.
Qed.
(** A single word parsed as exactly one flag is written in the data, unless it is a
    one-letter bundle, which is the letter itself and so declared. *)
Lemma one_flag_written j w p :
  flags_unambiguous j -> parse_words j [w] = ([Flag p], []) -> written_flag j w p.
Proof.
  intros U E. destruct (front_cases j [w]) as [S|(fos & ws' & G)].
  - rewrite (pw_start _ _ S) in E. discriminate.
  - rewrite (pw_group _ _ _ _ G) in E.
    inversion G as [w0 p0 rest0 A1 A2 A3|w0 p0 arg0 rest0 A1 A2 A3 A4|w0 cs rest0 B1 B2 B3]; subst.
    + rewrite pw_nil in E. injection E as ->.
      destruct (declared_written j w U A2) as (q & Q).
      destruct Q as [(others & He & Hw)|[He _]].
      * destruct U as (L & ND & NE).
        assert (C : flag_canonical j w q) by (eapply flag_canonical_in_entry; eauto).
        rewrite (canonical_fun _ _ _ _ A3 C). left. eauto.
      * destruct U as (L & _). apply L in He. destruct He. discriminate.
    + rewrite pw_nil, app_nil_r in E. destruct B3 as (_ & -> & D).
      destruct cs as [|c [|c' cs]]; try discriminate. exfalso. apply B1.
      apply (D c). simpl. auto.
Qed.

(** ** C11: long options with an equals sign *)
Fixpoint has_char (c : ascii) (s : string) : bool :=
  match s with EmptyString => false | String d s' => Ascii.eqb c d || has_char c s' end.
Lemma has_char_app c a b : has_char c (a +++ b) = has_char c a || has_char c b.
Proof. induction a; simpl; auto. rewrite IHa, orb_assoc. reflexivity. Qed.

Definition no_equals (j : json_data) : bool :=
  negb (mem "--" (get_set_of_all_flags j)) &&
  forallb (fun w => negb (has_char "=" w)) (get_set_of_all_flags j ++ get_set_of_all_options j).
Lemma shipped_no_equals : forallb (fun p => no_equals (snd p)) shipped_table = true.
Proof. vm_compute. reflexivity. Qed.

Lemma equals_word_starts_operands j name value rest :
  no_equals j = true -> operands_start j (("--" +++ name +++ "=" +++ value) :: rest).
Proof.
  unfold no_equals. rewrite andb_true_iff, negb_true_iff, mem_not_In, flags_spec, forallb_forall.
  intros [H1 H2]. right.
  assert (C : has_char "=" ("--" +++ name +++ "=" +++ value) = true).
  { rewrite !has_char_app. simpl. rewrite orb_true_r. reflexivity. }
  assert (NF : ~ In ("--" +++ name +++ "=" +++ value) (get_set_of_all_flags j ++ get_set_of_all_options j)).
  { intros X. apply H2 in X. rewrite C in X. discriminate. }
  rewrite in_app_iff, flags_spec, options_spec in NF. repeat split; try tauto.
  intros cs (Hne & E & D). destruct cs as [|c cs]; [congruence|].
  simpl in E. injection E as E1 E2. apply H1. specialize (D c (or_introl eq_refl)).
  subst c. exact D.
Qed.

(** ** C12 at the level of [parse] *)
Lemma list_ascii_app a b :
  list_ascii_of_string (a +++ b) = list_ascii_of_string a ++ list_ascii_of_string b.
Proof. induction a; simpl; congruence. Qed.
Lemma sapp_inj_r a b c : a +++ c = b +++ c -> a = b.
Proof.
  intros H. apply (f_equal list_ascii_of_string) in H. rewrite !list_ascii_app in H.
  apply app_inv_tail in H. apply (f_equal string_of_list_ascii) in H.
  rewrite !string_of_list_ascii_of_string in H. exact H.
Qed.

Lemma shipped_flags_unambiguous name j :
  name <> "uniq" -> loads shipped_dir name j -> flags_unambiguous j.
Proof.
  intros N L. apply shipped_loads in L. destruct L as [L|[_ ->]].
  - apply (shipped_cases _ _ L). intros E. apply N. apply (sapp_inj_r _ _ ".json"). exact E.
  - apply flags_b_spec. vm_compute. reflexivity.
Qed.
Lemma shipped_options_unambiguous name j : loads shipped_dir name j -> options_unambiguous j.
Proof.
  intros L. apply shipped_loads in L. destruct L as [L|[_ ->]].
  - apply (shipped_cases _ _ L).
  - apply options_b_spec. vm_compute. reflexivity.
Qed.
Lemma shipped_well_formed name j :
  name <> "uniq" -> name <> "mv" -> loads shipped_dir name j -> well_formed j.
Proof.
  intros N1 N2 L. apply shipped_loads in L. destruct L as [L|[_ ->]].
  - apply (shipped_cases _ _ L); intros E; [apply N1|apply N2]; apply (sapp_inj_r _ _ ".json"); exact E.
  - apply wf_b_spec. vm_compute. reflexivity.
Qed.

Lemma parse_written_flag name j s w p rest :
  name <> "uniq" -> loads shipped_dir name j -> written_flag j w p ->
  tokenises s (name :: w :: rest) ->
  exists fos ops, segments j rest fos ops /\ parse shipped_dir s = Ok (mkInv name (Flag p :: fos) ops).
Proof.
  intros N L W T. rewrite (parse_of_words _ _ _ _ _ T L).
  assert (G := written_flag_group j w p rest (shipped_flags_unambiguous _ _ N L) W).
  rewrite (pw_group _ _ _ _ G). destruct (parse_words j rest) as (fos, ops) eqn:E.
  exists fos, ops. rewrite <- parse_words_iff_segments. auto.
Qed.
Lemma parse_written_option name j s w p arg rest :
  loads shipped_dir name j -> written_option j w p -> ~ flag_declared j w ->
  tokenises s (name :: w :: arg :: rest) ->
  exists fos ops, segments j rest fos ops /\
    parse shipped_dir s = Ok (mkInv name (Option_ p arg :: fos) ops).
Proof.
  intros L W NF T. rewrite (parse_of_words _ _ _ _ _ T L).
  assert (G := written_option_group j w p arg rest (shipped_options_unambiguous _ _ L) NF W).
  rewrite (pw_group _ _ _ _ G). destruct (parse_words j rest) as (fos, ops) eqn:E.
  exists fos, ops. rewrite <- parse_words_iff_segments. auto.
Qed.
Lemma parse_nothing_else name j s w p :
  name <> "uniq" -> loads shipped_dir name j -> tokenises s [name; w] ->
  parse shipped_dir s = Ok (mkInv name [Flag p] []) -> written_flag j w p.
Proof.
  intros N L T E. rewrite (parse_of_words _ _ _ _ _ T L) in E.
  apply one_flag_written; [eapply shipped_flags_unambiguous; eauto|].
  destruct (parse_words j [w]). injection E as -> ->. reflexivity.
Qed.
Definition shadow_ok (p : string * json_data) : bool :=
  forallb (fun w => negb (mem w (get_set_of_all_flags (snd p)))
                    || (String.eqb (fst p) "mv.json" && String.eqb w "--backup"))
          (get_set_of_all_options (snd p)).
Lemma shadow_ok_all : forallb shadow_ok shipped_table = true.
Proof. vm_compute. reflexivity. Qed.
Lemma mv_only_shadowed name j w :
  loads shipped_dir name j -> option_declared j w -> flag_declared j w ->
  name = "mv" /\ w = "--backup".
Proof.
  intros L O F. apply options_spec in O. apply flags_spec, mem_In in F.
  apply shipped_loads in L. destruct L as [L|[_ ->]]; [|destruct O].
  assert (X := proj1 (forallb_forall _ _) shadow_ok_all _ L).
  apply (proj1 (forallb_forall _ _) X) in O. cbn [fst snd] in O. rewrite F in O. simpl in O.
  apply andb_prop in O. rewrite !String.eqb_eq in O. destruct O as [O1 O2]. split; auto.
  apply (sapp_inj_r _ _ ".json"). exact O1.
Qed.

Lemma equals_word_operand name opt value rest s :
  tokenises s (name :: ("--" +++ opt +++ "=" +++ value) :: rest) ->
  parse shipped_dir s = Ok (mkInv name [] (("--" +++ opt +++ "=" +++ value) :: rest)).
Proof.
  intros T. destruct (shipped_always_loads name) as (j & L).
  rewrite (parse_of_words _ _ _ _ _ T L), pw_start; auto.
  apply equals_word_starts_operands.
  apply shipped_loads in L. destruct L as [L|[_ ->]].
  - exact (proj1 (forallb_forall _ _) shipped_no_equals _ L).
  - vm_compute. reflexivity.
Qed.
