Require Import Verif.PyBase Verif.Shlex Verif.JsonData Verif.Parser.
Require Import Verif.SpecShlex Verif.SpecParser Verif.ShlexFacts.

Lemma mem_In x l : mem x l = true <-> In x l.
Proof.
  unfold mem. rewrite existsb_exists. split.
  - intros (y & H & E). apply String.eqb_eq in E. subst; auto.
  - intros H. exists x. rewrite String.eqb_refl. auto.
Qed.
Lemma mem_not_In x l : mem x l = false <-> ~ In x l.
Proof. rewrite <- mem_In. destruct (mem x l); split; congruence. Qed.

Lemma chars_spec s : chars s = map (fun c => String c "") (list_ascii_of_string s).
Proof. induction s as [|c s IH]; simpl; [reflexivity|]. rewrite IH. reflexivity. Qed.
Lemma spellings_elements e : flag_entry_elements e = spellings e.
Proof. destruct e; simpl; auto using chars_spec. Qed.

Lemma flags_spec j w : In w (get_set_of_all_flags j) <-> flag_declared j w.
Proof.
  unfold get_set_of_all_flags, flag_declared. rewrite in_flat_map.
  split; intros (e & H1 & H2); exists e; rewrite spellings_elements in *; auto.
Qed.
Lemma options_spec j w : In w (get_set_of_all_options j) <-> option_declared j w.
Proof. unfold get_set_of_all_options, option_declared. apply in_flat_map. Qed.

(** ** Synonym dictionaries *)
Lemma dict_find_syn others (p : string) (d : dict string) (w : string) :
  dict_find (fold_left (fun d s => dict_set d s p) others d) w =
  if mem w others then Some p else dict_find d w.
Proof.
  revert d; induction others as [|o others IH]; intros d; simpl; auto.
  rewrite IH. simpl. destruct (mem w others) eqn:M.
  - rewrite orb_true_r. reflexivity.
  - rewrite orb_false_r. reflexivity.
Qed.

Lemma canonical_spec groups : forall w p,
  dict_get_default (fold_left add_synonyms groups []) w w = p <-> canonical groups w p.
Proof.
  intros w p. unfold canonical.
  assert (G : forall groups,
    match dict_find (fold_left add_synonyms groups []) w with
    | Some p => exists pre others post, groups = pre ++ (p :: others) :: post /\ In w others /\
                  forall l, In l post -> ~ further l w
    | None => forall l, In l groups -> ~ further l w
    end).
  { clear. intros groups. induction groups as [|l groups IH] using rev_ind; simpl; auto.
    rewrite fold_left_app. simpl. destruct l as [|q others]; simpl.
    - destruct (dict_find _ w).
      + destruct IH as (pre & others & post & -> & H1 & H2).
        exists pre, others, (post ++ [[]]). rewrite <- app_assoc. repeat split; auto.
        intros l H. apply in_app_iff in H. destruct H as [H|[<-|[]]]; auto.
      + intros l H. apply in_app_iff in H. destruct H as [H|[<-|[]]]; auto.
    - rewrite dict_find_syn. destruct (mem w others) eqn:M.
      + apply mem_In in M. exists groups, others, []. repeat split; auto.
      + apply mem_not_In in M. destruct (dict_find _ w).
        * destruct IH as (pre & others' & post & -> & H1 & H2).
          exists pre, others', (post ++ [q :: others]). rewrite <- app_assoc. repeat split; auto.
          intros l H. apply in_app_iff in H. destruct H as [H|[<-|[]]]; auto.
        * intros l H. apply in_app_iff in H. destruct H as [H|[<-|[]]]; auto. }
  specialize (G groups). unfold dict_get_default.
  destruct (dict_find (fold_left add_synonyms groups []) w) as [q|].
  - split.
    + intros ->. left. auto.
    + intros [(pre & others & post & E & H1 & H2)|[H1 ->]].
      * destruct G as (pre' & others' & post' & E' & H1' & H2').
        (* both are the last group that lists w as a further spelling *)
        rewrite E in E'. clear -E' H1 H1' H2 H2'. revert pre' E'.
        induction pre as [|l pre IH]; intros pre' E'; destruct pre' as [|l' pre']; simpl in E'.
        -- injection E'; auto.
        -- injection E' as E1 E2. exfalso. apply (H2 (q :: others')); [|exact H1'].
           rewrite E2. apply in_elt.
        -- injection E' as E1 E2. exfalso. apply (H2' (p :: others)); [|exact H1].
           rewrite <- E2. apply in_elt.
        -- injection E' as E1 E2. eauto.
      * destruct G as (pre & others & post & E & H2 & H3). exfalso.
        apply (H1 (q :: others)); [|exact H2]. rewrite E. apply in_elt.
  - split.
    + intros <-. auto.
    + intros [(pre & others & post & E & H1 & H2)|[H1 ->]]; auto.
      exfalso. apply (G (p :: others)); [|exact H1]. rewrite E. apply in_elt.
Qed.

Lemma fold_add_map {A} (f : A -> list string) l : forall d,
  fold_left (fun d e => add_synonyms d (f e)) l d = fold_left add_synonyms (map f l) d.
Proof. induction l; simpl; auto. Qed.

Lemma flag_dict_eq j :
  get_dict_flag_to_primary_repr j = fold_left add_synonyms (map spellings (j_flag j)) [].
Proof.
  unfold get_dict_flag_to_primary_repr. rewrite fold_add_map. f_equal.
  apply map_ext. apply spellings_elements.
Qed.

Lemma flag_canonical_spec j w p :
  dict_get_default (get_dict_flag_to_primary_repr j) w w = p <-> flag_canonical j w p.
Proof. rewrite flag_dict_eq. apply canonical_spec. Qed.
Lemma option_canonical_spec j w p :
  dict_get_default (get_dict_option_to_primary_repr j) w w = p <-> option_canonical j w p.
Proof. unfold get_dict_option_to_primary_repr. rewrite fold_add_map. apply canonical_spec. Qed.

Lemma canonical_fun g w p q : canonical g w p -> canonical g w q -> p = q.
Proof. rewrite <- !canonical_spec. congruence. Qed.
Lemma canonical_total g w : exists p, canonical g w p.
Proof. eexists. apply canonical_spec. reflexivity. Qed.

(** ** Bundles *)
Lemma bundle_letters j w cs : bundle j w cs ->
  bundle_flags w = map (fun c => Flag (letter_flag c)) cs.
Proof.
  intros (_ & -> & _). simpl. rewrite chars_spec, list_ascii_of_string_of_list_ascii, map_map.
  reflexivity.
Qed.

Lemma are_all_spec j w : are_all_individually_flags w (get_set_of_all_flags j) = true <->
  exists cs, bundle j w cs.
Proof.
  unfold bundle. destruct w as [|c rest].
  - simpl. split; [discriminate|]. intros (cs & _ & H & _). discriminate.
  - cbn [are_all_individually_flags]. destruct (Ascii.eqb c "-") eqn:C; cbn [negb orb].
    + apply Ascii.eqb_eq in C. subst c. destruct (String.eqb (String "-" rest) "-") eqn:D.
      * apply String.eqb_eq in D. injection D as ->. split; [discriminate|].
        intros ([|c cs] & H & E & _); [congruence|discriminate].
      * apply String.eqb_neq in D. rewrite chars_spec, forallb_forall. split.
        -- intros H. exists (list_ascii_of_string rest). repeat split.
           ++ destruct rest; [congruence|discriminate].
           ++ rewrite string_of_list_ascii_of_string. reflexivity.
           ++ intros c Hc. apply flags_spec, mem_In. apply (H (String c "")).
              apply in_map_iff. eauto.
        -- intros (cs & H1 & E & H2) x Hx. apply in_map_iff in Hx.
           destruct Hx as (c & <- & Hc). apply mem_In, flags_spec, H2.
           injection E as ->. rewrite list_ascii_of_string_of_list_ascii in Hc. exact Hc.
    + split; [discriminate|]. intros (cs & _ & E & _). injection E as -> _.
      apply Ascii.eqb_neq in C. congruence.
Qed.

Lemma are_all_spec_false j w : are_all_individually_flags w (get_set_of_all_flags j) = false <->
  forall cs, ~ bundle j w cs.
Proof.
  split.
  - intros H cs B. assert (T := proj2 (are_all_spec j w) (ex_intro _ cs B)). congruence.
  - intros H. destruct (are_all_individually_flags w (get_set_of_all_flags j)) eqn:E; auto.
    apply are_all_spec in E. destruct E as (cs & B). exfalso. eapply H; eauto.
Qed.

(** ** The loop against the declarative segmentation *)

(** Unfolding equations for [parse_words]. *)
Lemma pw_nil j : parse_words j [] = ([], []).
Proof. reflexivity. Qed.

Lemma pw_group j ws fos ws' : group j ws fos ws' ->
  parse_words j ws = let '(fos', ops) := parse_words j ws' in (fos ++ fos', ops).
Proof.
  intros H. destruct H; unfold parse_words; cbn [parse_loop].
  - apply String.eqb_neq in H. rewrite H.
    rewrite (proj2 (mem_In _ _) (proj2 (flags_spec j w) H0)).
    apply flag_canonical_spec in H1. rewrite H1. reflexivity.
  - apply String.eqb_neq in H. rewrite H.
    rewrite (proj2 (mem_not_In _ _) (fun X => H0 (proj1 (flags_spec j w) X))).
    rewrite (proj2 (mem_In _ _) (proj2 (options_spec j w) H1)).
    apply option_canonical_spec in H2. rewrite H2. reflexivity.
  - destruct (String.eqb w "") eqn:E.
    { apply String.eqb_eq in E. subst w. destruct H1 as (_ & E & _). discriminate. }
    rewrite (proj2 (mem_not_In _ _) (fun X => H (proj1 (flags_spec j w) X))).
    rewrite (proj2 (are_all_spec j w) (ex_intro _ cs H1)), (bundle_letters j w cs H1).
    destruct (mem w (get_set_of_all_options j)) eqn:M; [|reflexivity].
    apply mem_In, options_spec in M. rewrite (H0 M). reflexivity.
Qed.

Lemma pw_start j ws : operands_start j ws -> parse_words j ws = ([], ws).
Proof.
  destruct ws as [|w rest]; intros H; [reflexivity|].
  unfold parse_words. cbn [parse_loop]. destruct H as [->|(H1 & H2 & H3)]; [reflexivity|].
  destruct (String.eqb w ""); [reflexivity|].
  rewrite (proj2 (mem_not_In _ _) (fun X => H1 (proj1 (flags_spec j w) X))).
  rewrite (proj2 (are_all_spec_false j w) H3).
  destruct (mem w (get_set_of_all_options j)) eqn:M; [|reflexivity].
  apply mem_In, options_spec in M. rewrite (H2 M). reflexivity.
Qed.

Lemma pw_groups j ws fos ws' : groups j ws fos ws' ->
  parse_words j ws = let '(fos', ops) := parse_words j ws' in (fos ++ fos', ops).
Proof.
  induction 1.
  - destruct (parse_words j ws); reflexivity.
  - rewrite (pw_group _ _ _ _ H), IHgroups. destruct (parse_words j ws'').
    rewrite app_assoc. reflexivity.
Qed.

(** Either a group or the operands start at the front. *)
Lemma front_cases j ws : operands_start j ws \/ exists fos ws', group j ws fos ws'.
Proof.
  destruct ws as [|w rest]; [left; exact I|].
  destruct (string_dec w "") as [->|Hne]; [left; left; reflexivity|].
  destruct (mem w (get_set_of_all_flags j)) eqn:F.
  { apply mem_In, flags_spec in F. right.
    destruct (canonical_total (map spellings (j_flag j)) w) as (p & Hp).
    eexists _, _. eapply group_flag; eauto. }
  assert (NF : ~ flag_declared j w) by (rewrite <- flags_spec; apply mem_not_In; auto).
  assert (B : (exists cs, bundle j w cs) \/ forall cs, ~ bundle j w cs).
  { rewrite <- are_all_spec, <- are_all_spec_false.
    destruct (are_all_individually_flags _ _); auto. }
  destruct (mem w (get_set_of_all_options j)) eqn:O.
  - apply mem_In, options_spec in O. destruct rest as [|arg rest].
    + destruct B as [(cs & B)|B].
      * right. eexists _, _. eapply group_bundle; eauto.
      * left. right. auto.
    + right. destruct (canonical_total (map oe_names (j_option j)) w) as (p & Hp).
      eexists _, _. eapply group_option; eauto.
  - assert (NO : ~ option_declared j w) by (rewrite <- options_spec; apply mem_not_In; auto).
    destruct B as [(cs & B)|B].
    + right. eexists _, _. eapply group_bundle; eauto. tauto.
    + left. right. tauto.
Qed.

Lemma group_shorter j ws fos ws' : group j ws fos ws' -> length ws' < length ws.
Proof. destruct 1; simpl; auto with arith. Qed.

Theorem parse_words_iff_segments j ws fos ops :
  parse_words j ws = (fos, ops) <-> segments j ws fos ops.
Proof.
  split.
  - remember (length ws) as n eqn:Hn. revert ws fos ops Hn.
    induction n as [n IH] using (well_founded_induction lt_wf). intros ws fos ops Hn E.
    destruct (front_cases j ws) as [S|(fos1 & ws1 & G)].
    + rewrite (pw_start _ _ S) in E. injection E as <- <-. split; [constructor|auto].
    + rewrite (pw_group _ _ _ _ G) in E. destruct (parse_words j ws1) as (fos2, ops2) eqn:E2.
      injection E as <- <-. subst n.
      destruct (IH (length ws1) (group_shorter _ _ _ _ G) ws1 fos2 ops2 eq_refl E2) as [H1 H2].
      split; auto. econstructor; eauto.
  - intros [H1 H2]. rewrite (pw_groups _ _ _ _ H1), (pw_start _ _ H2), app_nil_r. reflexivity.
Qed.

(** ** parse *)
Lemma get_json_data_ok dir name j : get_json_data dir name = Ok j <-> loads dir name j.
Proof.
  unfold get_json_data, loads, default_file.
  destruct (dir (name +++ ".json")); [|destruct (dir "_default_data_for_commands.json")|];
    intuition congruence.
Qed.
Lemma get_json_data_raise dir name e : get_json_data dir name = Raise e <-> load_fails dir name e.
Proof.
  unfold get_json_data, load_fails, default_file.
  destruct (dir (name +++ ".json")); [|destruct (dir "_default_data_for_commands.json")|];
    intuition congruence.
Qed.

Theorem parse_iff dir s inv : parse dir s = Ok inv <->
  exists words j, tokenises s (cmd_name inv :: words) /\ loads dir (cmd_name inv) j /\
    segments j words (flag_option_list inv) (operand_list inv).
Proof.
  unfold parse. split.
  - intros E. destruct (shlex_split s) as [ws|] eqn:S; simpl in E; [|discriminate].
    destruct ws as [|name words]; [discriminate|].
    destruct (get_json_data dir name) as [j|] eqn:J; simpl in E; [|discriminate].
    destruct (parse_words j words) as (fos, ops) eqn:P. injection E as <-. simpl.
    exists words, j. rewrite <- split_iff_tokenises, <- get_json_data_ok, <- parse_words_iff_segments.
    auto.
  - intros (words & j & H1 & H2 & H3).
    rewrite <- split_iff_tokenises in H1. rewrite <- get_json_data_ok in H2.
    rewrite <- parse_words_iff_segments in H3. rewrite H1. simpl. rewrite H2. simpl.
    rewrite H3. destruct inv; reflexivity.
Qed.

Theorem parse_raises_iff dir s e : parse dir s = Raise e <->
  (e = ValueError /\ unfinished s) \/
  (e = IndexError /\ tokenises s []) \/
  (exists name words, tokenises s (name :: words) /\ load_fails dir name e).
Proof.
  unfold parse. destruct (shlex_split s) as [ws|e'] eqn:S; simpl.
  - assert (NU : ~ unfinished s).
    { intros U. assert (X := proj2 (split_raises_iff_unfinished s ValueError) (conj eq_refl U)).
      congruence. }
    assert (UT : forall ws', tokenises s ws' -> ws' = ws)
      by (intros ws'; rewrite <- split_iff_tokenises; congruence).
    destruct ws as [|name words].
    + split.
      * intros [= <-]. right. left. rewrite <- split_iff_tokenises. auto.
      * intros [[_ H]|[[-> _]|(n & w & H & _)]]; [tauto|reflexivity|].
        apply UT in H. discriminate.
    + destruct (get_json_data dir name) as [j|e1] eqn:J; simpl.
      * split.
        -- destruct (parse_words j words); discriminate.
        -- intros [[_ H]|[[_ H]|(n & w & H & L)]]; [tauto| |].
           ++ apply UT in H. discriminate.
           ++ apply UT in H. injection H as -> ->. rewrite <- get_json_data_raise in L. congruence.
      * split.
        -- intros [= <-]. right. right. exists name, words.
           rewrite <- split_iff_tokenises, <- get_json_data_raise. auto.
        -- intros [[_ H]|[[_ H]|(n & w & H & L)]]; [tauto| |].
           ++ apply UT in H. discriminate.
           ++ apply UT in H. injection H as -> ->. rewrite <- get_json_data_raise in L. congruence.
  - assert (NT : forall ws, ~ tokenises s ws)
      by (intros ws; rewrite <- split_iff_tokenises; congruence).
    split.
    + intros [= <-]. left. apply split_raises_iff_unfinished. auto.
    + intros [[-> H]|[[_ H]|(n & w & H & L)]].
      * apply split_raises_iff_unfinished in S. f_equal. tauto.
      * exfalso. eapply NT; eauto.
      * exfalso. eapply NT; eauto.
Qed.
