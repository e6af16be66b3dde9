Require Import Verif.PyBase Verif.Shlex Verif.JsonData Verif.Parser.
Require Import Verif.SpecShlex Verif.SpecParser Verif.ShlexFacts Verif.ParserFacts.

(** ** Groups and contexts *)
Lemma group_suffix j ws fos ws' : group j ws fos ws' -> exists pre, ws = pre ++ ws' /\ pre <> [].
Proof.
  destruct 1; [exists [w]|exists [w; arg]|exists [w]]; split; auto; discriminate.
Qed.
Lemma groups_suffix j ws fos ws' : groups j ws fos ws' -> exists pre, ws = pre ++ ws'.
Proof.
  induction 1.
  - exists []. reflexivity.
  - destruct IHgroups as (pre & ->). apply group_suffix in H.
    destruct H as (pre' & -> & _). exists (pre' ++ pre). rewrite app_assoc. reflexivity.
Qed.

Lemma groups_swap j ws fos x : groups j ws fos x -> forall pre x',
  ws = pre ++ x -> (x = [] <-> x' = []) -> groups j (pre ++ x') fos x'.
Proof.
  induction 1 as [ws|ws fos ws1 fos' x G Gs IH]; intros pre x' E Hx.
  - rewrite <- (app_nil_l ws) in E at 1. apply app_inv_tail in E. subst pre. constructor.
  - destruct (groups_suffix _ _ _ _ Gs) as (pre1 & E1).
    specialize (IH pre1 x' E1 Hx).
    assert (N : ws1 = [] -> pre1 ++ x' = []).
    { intros N. rewrite N in E1. symmetry in E1. apply app_eq_nil in E1.
      destruct E1 as [-> N']. apply Hx. auto. }
    destruct G.
    + change (w :: rest) with ([w] ++ rest) in E. rewrite E1, app_assoc in E.
      apply app_inv_tail in E. subst pre.
      eapply groups_cons; [|exact IH]. apply group_flag; auto.
    + change (w :: arg :: rest) with ([w; arg] ++ rest) in E. rewrite E1, app_assoc in E.
      apply app_inv_tail in E. subst pre.
      eapply groups_cons; [|exact IH]. apply group_option; auto.
    + change (w :: rest) with ([w] ++ rest) in E. rewrite E1, app_assoc in E.
      apply app_inv_tail in E. subst pre.
      eapply groups_cons; [|exact IH]. apply group_bundle; auto.
Qed.

Lemma groups_app j ws fos ws' fos' ws'' :
  groups j ws fos ws' -> groups j ws' fos' ws'' -> groups j ws (fos ++ fos') ws''.
Proof.
  induction 1; intros; auto. rewrite <- app_assoc. econstructor; eauto.
Qed.

Lemma pw_group_after j ws fos0 ws1 fos ws2 :
  groups j ws fos0 ws1 -> group j ws1 fos ws2 ->
  parse_words j ws = let '(fos', ops) := parse_words j ws2 in (fos0 ++ fos ++ fos', ops).
Proof.
  intros H1 H2. rewrite (pw_groups _ _ _ _ H1), (pw_group _ _ _ _ H2).
  destruct (parse_words j ws2). reflexivity.
Qed.

(** ** C04 *)
Lemma operands_suffix j ws fos ops : parse_words j ws = (fos, ops) -> exists pre, ws = pre ++ ops.
Proof. rewrite parse_words_iff_segments. intros [H _]. eapply groups_suffix; eauto. Qed.

Lemma operands_opaque j pre w w2 rest rest' fos :
  parse_words j (pre ++ w :: w2 :: rest) = (fos, w :: w2 :: rest) -> rest' <> [] ->
  parse_words j (pre ++ w :: rest') = (fos, w :: rest').
Proof.
  rewrite !parse_words_iff_segments. intros [H1 H2] Hr. split.
  - eapply groups_swap; eauto. split; discriminate.
  - simpl in *. destruct H2 as [->|(A & B & C)]; auto. right. repeat split; auto.
    intros O. apply B in O. discriminate.
Qed.

(** ** Canonical spellings in unambiguous data *)
Lemma further_In l w : further l w -> In w l.
Proof. destruct l; simpl; auto. Qed.

Lemma NoDup_app_disjoint {A} (l1 l2 : list A) x : NoDup (l1 ++ l2) -> In x l1 -> In x l2 -> False.
Proof.
  induction l1 as [|a l1 IH]; simpl; intros H H1 H2; auto.
  inversion H; subst. destruct H1 as [->|H1]; eauto. apply H4, in_app_iff. auto.
Qed.
Lemma NoDup_app_r {A} (l1 l2 : list A) : NoDup (l1 ++ l2) -> NoDup l2.
Proof. induction l1; simpl; auto. intros H. inversion H; auto. Qed.
Lemma NoDup_app_l {A} (l1 l2 : list A) : NoDup (l1 ++ l2) -> NoDup l1.
Proof.
  induction l1 as [|a l1 IH]; simpl; intros H; constructor; inversion H; subst; auto.
  intros X. apply H2, in_app_iff. auto.
Qed.

Lemma canonical_in_group groups p others w :
  NoDup (concat groups) -> In (p :: others) groups -> In w (p :: others) -> canonical groups w p.
Proof.
  intros ND Hg Hw. apply in_split in Hg. destruct Hg as (pre & post & ->).
  rewrite concat_app in ND. simpl in ND.
  assert (D1 : forall l, In l pre -> ~ In w l).
  { intros l Hl Hwl. apply (NoDup_app_disjoint _ _ w ND).
    - apply in_concat. eauto.
    - simpl in *. rewrite in_app_iff. tauto. }
  assert (D2 : forall l, In l post -> ~ In w l).
  { intros l Hl Hwl. apply NoDup_app_r in ND. change (p :: others ++ concat post) with ((p :: others) ++ concat post) in ND.
    apply (NoDup_app_disjoint _ _ w ND); auto. apply in_concat. eauto. }
  destruct Hw as [->|Hw].
  - right. split; auto. intros l Hl F. apply in_app_iff in Hl. simpl in Hl.
    destruct Hl as [Hl|[<-|Hl]].
    + eapply D1; eauto using further_In.
    + simpl in F. apply NoDup_app_r in ND. inversion ND; subst. apply H1, in_app_iff. auto.
    + eapply D2; eauto using further_In.
  - left. exists pre, others, post. repeat split; auto.
    intros l Hl F. eapply D2; eauto using further_In.
Qed.

Lemma flag_canonical_in_entry j p others w :
  NoDup (flat_map spellings (j_flag j)) -> In (FEList (p :: others)) (j_flag j) ->
  In w (p :: others) -> flag_canonical j w p.
Proof.
  intros ND He Hw. rewrite flat_map_concat_map in ND. unfold flag_canonical.
  apply (canonical_in_group _ p others); auto.
  apply in_map_iff. exists (FEList (p :: others)). auto.
Qed.
Lemma option_canonical_in_entry j e p others w :
  NoDup (flat_map oe_names (j_option j)) -> In e (j_option j) -> oe_names e = p :: others ->
  In w (p :: others) -> option_canonical j w p.
Proof.
  intros ND He En Hw. rewrite flat_map_concat_map in ND. unfold option_canonical.
  apply (canonical_in_group _ p others); auto. rewrite <- En. apply in_map. auto.
Qed.

(** ** C05 *)
Lemma flag_synonyms j pre post fos w w' l :
  flags_unambiguous j -> In (FEList l) (j_flag j) -> In w l -> In w' l ->
  groups j (pre ++ w :: post) fos (w :: post) ->
  parse_words j (pre ++ w :: post) = parse_words j (pre ++ w' :: post).
Proof.
  intros (_ & ND & Hne) Hl Hw Hw' G. destruct l as [|p others]; [destruct Hw|].
  assert (D : forall x, In x (p :: others) -> flag_declared j x).
  { intros x Hx. exists (FEList (p :: others)). auto. }
  assert (N : forall x, In x (p :: others) -> x <> "").
  { intros x Hx ->. apply Hne. auto. }
  assert (G' : groups j (pre ++ w' :: post) fos (w' :: post))
    by (eapply groups_swap; eauto; split; discriminate).
  rewrite (pw_group_after _ _ _ _ [Flag p] post G), (pw_group_after _ _ _ _ [Flag p] post G');
    auto; apply group_flag; eauto using flag_canonical_in_entry.
Qed.

Lemma option_synonyms j pre arg post fos w w' e :
  options_unambiguous j -> In e (j_option j) -> In w (oe_names e) -> In w' (oe_names e) ->
  ~ flag_declared j w -> ~ flag_declared j w' ->
  groups j (pre ++ w :: arg :: post) fos (w :: arg :: post) ->
  parse_words j (pre ++ w :: arg :: post) = parse_words j (pre ++ w' :: arg :: post).
Proof.
  intros (ND & Hne) He Hw Hw' F F' G. destruct (oe_names e) as [|p others] eqn:En; [destruct Hw|].
  assert (D : forall x, In x (p :: others) -> option_declared j x).
  { intros x Hx. exists e. rewrite En. auto. }
  assert (N : forall x, In x (p :: others) -> x <> "").
  { intros x Hx ->. apply Hne. auto. }
  assert (G' : groups j (pre ++ w' :: arg :: post) fos (w' :: arg :: post))
    by (eapply groups_swap; eauto; split; discriminate).
  rewrite (pw_group_after _ _ _ _ [Option_ p arg] post G), (pw_group_after _ _ _ _ [Option_ p arg] post G');
    auto; apply group_option; eauto using option_canonical_in_entry.
Qed.

(** ** C06 *)
Lemma letter_flag_nonempty c : letter_flag c <> "".
Proof. discriminate. Qed.

Lemma groups_letters j cs rest :
  (forall c, In c cs -> flag_declared j (letter_flag c) /\ flag_canonical j (letter_flag c) (letter_flag c)) ->
  groups j (map letter_flag cs ++ rest) (map (fun c => Flag (letter_flag c)) cs) rest.
Proof.
  induction cs as [|c cs IH]; simpl; intros H; [constructor|].
  change (Flag (letter_flag c) :: map (fun c => Flag (letter_flag c)) cs)
    with ([Flag (letter_flag c)] ++ map (fun c => Flag (letter_flag c)) cs).
  destruct (H c (or_introl eq_refl)) as [A B].
  eapply groups_cons; [apply group_flag; eauto using letter_flag_nonempty|]. apply IH. auto.
Qed.

(** Splitting a bundle never changes the result when its letters are first
    spellings; [post] may not be taken for an argument. *)
Lemma bundle_split j pre post fos w cs :
  bundle j w cs -> ~ flag_declared j w -> (option_declared j w -> post = []) ->
  (forall c, In c cs -> flag_canonical j (letter_flag c) (letter_flag c)) ->
  groups j (pre ++ w :: post) fos (w :: post) ->
  parse_words j (pre ++ w :: post) = parse_words j (pre ++ map letter_flag cs ++ post).
Proof.
  intros B NF NO HC G.
  rewrite (pw_group_after _ _ _ _ _ post G (group_bundle j w cs post NF NO B)).
  assert (G' : groups j (pre ++ map letter_flag cs ++ post) fos (map letter_flag cs ++ post)).
  { eapply groups_swap; eauto. destruct B as (Hne & _). destruct cs; [congruence|].
    split; discriminate. }
  assert (G2 := groups_app _ _ _ _ _ _ G'
    (groups_letters j cs post (fun c Hc => conj (proj2 (proj2 B) c Hc) (HC c Hc)))).
  rewrite (pw_groups _ _ _ _ G2). destruct (parse_words j post). rewrite <- app_assoc. reflexivity.
Qed.

(** What a bundle yields in general, against what its letters yield separately. *)
Lemma groups_letters_general j cs rest :
  (forall c, In c cs -> flag_declared j (letter_flag c)) ->
  exists ps, Forall2 (fun c p => flag_canonical j (letter_flag c) p) cs ps /\
    groups j (map letter_flag cs ++ rest) (map Flag ps) rest.
Proof.
  induction cs as [|c cs IH]; simpl; intros H; [exists []; split; constructor|].
  destruct IH as (ps & F & G); [auto|].
  destruct (canonical_total (map spellings (j_flag j)) (letter_flag c)) as (p & Hp).
  exists (p :: ps). split; [constructor; auto|].
  change (map Flag (p :: ps)) with ([Flag p] ++ map Flag ps).
  eapply groups_cons; [|exact G]. apply group_flag; auto. discriminate.
Qed.

(** ** C07 *)
Lemma option_consumes j ws fos w arg rest p :
  groups j ws fos (w :: arg :: rest) ->
  w <> "" -> ~ flag_declared j w -> option_declared j w -> option_canonical j w p ->
  exists fos' ops, parse_words j rest = (fos', ops) /\
    parse_words j ws = (fos ++ Option_ p arg :: fos', ops).
Proof.
  intros G H1 H2 H3 H4.
  assert (E := pw_group_after _ _ _ _ _ rest G (group_option j w p arg rest H1 H2 H3 H4)).
  destruct (parse_words j rest) as (fos', ops). eauto.
Qed.

Lemma trailing_option j ws fos w :
  groups j ws fos [w] -> ~ flag_declared j w ->
  (parse_words j ws = (fos, [w]) /\ forall cs, ~ bundle j w cs) \/
  (exists cs, bundle j w cs /\
     parse_words j ws = (fos ++ map (fun c => Flag (letter_flag c)) cs, [])).
Proof.
  intros G NF.
  assert (B : (exists cs, bundle j w cs) \/ forall cs, ~ bundle j w cs).
  { rewrite <- are_all_spec, <- are_all_spec_false.
    destruct (are_all_individually_flags _ _); auto. }
  destruct B as [(cs & B)|B].
  - right. exists cs. split; auto.
    rewrite (pw_group_after _ _ _ _ _ [] G (group_bundle j w cs [] NF (fun _ => eq_refl) B)).
    rewrite pw_nil, app_nil_r. reflexivity.
  - left. split; auto. rewrite (pw_groups _ _ _ _ G), pw_start, app_nil_r; auto.
    simpl. right. auto.
Qed.

(** ** C08 *)
Lemma no_data_all_operands j ws : j_flag j = [] -> j_option j = [] -> parse_words j ws = ([], ws).
Proof.
  intros F O. apply pw_start. destruct ws as [|w rest]; simpl; auto. right.
  unfold flag_declared, option_declared, bundle. rewrite F, O. repeat split.
  - intros (e & [] & _).
  - intros (e & [] & _).
  - intros [|c cs] (H & _ & D); [congruence|]. destruct (D c (or_introl eq_refl)) as (e & H1 & _).
    unfold flag_declared in H1. rewrite F in H1. destruct H1.
Qed.

(** ** C10 *)
Lemma flag_canonical_declared j w p : flag_declared j w -> flag_canonical j w p -> flag_declared j p.
Proof.
  intros D [(pre & others & post & E & H & _)|[_ ->]]; auto.
  assert (X : In (p :: others) (map spellings (j_flag j))) by (rewrite E; apply in_elt).
  apply in_map_iff in X. destruct X as (e & E1 & E2). exists e. rewrite E1. simpl. auto.
Qed.
Lemma option_canonical_first j w p : option_declared j w -> option_canonical j w p ->
  exists e others, In e (j_option j) /\ oe_names e = p :: others.
Proof.
  intros (e & He & Hw) [(pre & others & post & E & H & _)|[H ->]].
  - assert (X : In (p :: others) (map oe_names (j_option j))) by (rewrite E; apply in_elt).
    apply in_map_iff in X. destruct X as (e' & E1 & E2). eauto.
  - exists e. destruct (oe_names e) as [|q others] eqn:En; [destruct Hw|].
    exists others. split; auto. destruct Hw as [->|Hw]; auto.
    exfalso. apply (H (q :: others)); auto. rewrite <- En. apply in_map. auto.
Qed.

Definition name_declared (j : json_data) (fo : flag_option) : Prop :=
  match fo with
  | Flag n => flag_declared j n
  | Option_ n _ => exists e others, In e (j_option j) /\ oe_names e = n :: others
  end.

Lemma group_names j ws fos ws' : group j ws fos ws' -> Forall (name_declared j) fos.
Proof.
  destruct 1; repeat constructor; simpl.
  - eauto using flag_canonical_declared.
  - eauto using option_canonical_first.
  - apply Forall_forall. intros fo Hf. apply in_map_iff in Hf. destruct Hf as (c & <- & Hc).
    apply H1. auto.
Qed.
Lemma parse_names_declared j ws fos ops : parse_words j ws = (fos, ops) -> Forall (name_declared j) fos.
Proof.
  rewrite parse_words_iff_segments. intros [H _]. induction H; [constructor|].
  apply Forall_app. split; auto. eapply group_names; eauto.
Qed.

(** ** C09 *)
Lemma groups_rewritten j fos rest :
  Forall (name_declared j) fos -> names_canonical j fos ->
  groups j (flat_map fo_words fos ++ rest) fos rest.
Proof.
  induction fos as [|fo fos IH]; intros D C; [constructor|].
  inversion D as [|? ? D1 D2]; subst.
  assert (G : groups j (flat_map fo_words fos ++ rest) fos rest)
    by (apply IH; auto; intros x Hx; apply C; simpl; auto).
  assert (C1 := C fo (or_introl eq_refl)).
  simpl. rewrite <- app_assoc.
  apply (groups_cons j _ [fo] (flat_map fo_words fos ++ rest) fos rest); [|exact G].
  destruct fo as [n|n a]; simpl in *.
  - destruct C1. apply group_flag; auto.
  - destruct C1 as (N & C1 & F). destruct D1 as (e & others & He & En).
    apply group_option; auto. exists e. rewrite En. simpl. auto.
Qed.

Lemma reparse j ws fos ops :
  parse_words j ws = (fos, ops) -> names_canonical j fos ->
  parse_words j (flat_map fo_words fos ++ ops) = (fos, ops).
Proof.
  intros E C. assert (D := parse_names_declared _ _ _ _ E).
  rewrite parse_words_iff_segments in *. destruct E as [_ S]. split; auto.
  apply groups_rewritten; auto.
Qed.

Lemma parse_written dir s inv words j :
  tokenises s (cmd_name inv :: words) -> loads dir (cmd_name inv) j ->
  parse_words j words = (flag_option_list inv, operand_list inv) ->
  parse dir s = Ok inv.
Proof.
  intros H1 H2 H3. apply parse_iff. exists words, j. rewrite <- parse_words_iff_segments. auto.
Qed.

Lemma reparse_inv dir s inv j :
  parse dir s = Ok inv -> loads dir (cmd_name inv) j -> names_canonical j (flag_option_list inv) ->
  parse dir (shlex_join (inv_words inv)) = Ok inv.
Proof.
  intros E L C. apply parse_iff in E. destruct E as (words & j' & H1 & H2 & H3).
  rewrite <- get_json_data_ok in L, H2. assert (j' = j) by congruence. subst j'.
  apply (parse_written dir _ inv (flat_map fo_words (flag_option_list inv) ++ operand_list inv) j).
  - apply join_tokenises.
  - apply get_json_data_ok. auto.
  - apply parse_words_iff_segments in H3. eapply reparse; eauto.
Qed.

(** Without bundles of non-first spellings the side condition holds by itself. *)
Lemma canonical_idempotent groups w p :
  NoDup (concat groups) -> canonical groups w p -> canonical groups p p.
Proof.
  intros ND [(pre & others & post & E & H & _)|[H ->]].
  - eapply canonical_in_group; eauto; [rewrite E; apply in_elt|simpl; auto].
  - right. auto.
Qed.

Lemma well_formed_flags j : well_formed j -> flags_unambiguous j.
Proof.
  intros (H1 & H2 & H3 & H4). repeat split.
  - intros e He. destruct (H1 e He) as (l & -> & _). eauto.
  - eapply NoDup_app_l; eauto.
  - intros D. apply (H4 ""); auto.
Qed.
Lemma well_formed_options j : well_formed j -> options_unambiguous j.
Proof.
  intros (H1 & H2 & H3 & H4). split.
  - eapply NoDup_app_r; eauto.
  - intros D. apply (H4 ""); auto.
Qed.
Lemma well_formed_disjoint j w : well_formed j -> flag_declared j w -> option_declared j w -> False.
Proof.
  intros (_ & _ & H & _) (e & H1 & H2) (e' & H3 & H4).
  eapply NoDup_app_disjoint; eauto; apply in_flat_map; eauto.
Qed.

Definition recanon (j : json_data) (fo fo' : flag_option) : Prop :=
  match fo with
  | Flag n => exists p, flag_canonical j n p /\ fo' = Flag p
  | Option_ n a => fo' = Option_ n a
  end.

Lemma groups_rewritten_general j fos rest :
  well_formed j -> Forall (name_declared j) fos ->
  exists fos', Forall2 (recanon j) fos fos' /\ groups j (flat_map fo_words fos ++ rest) fos' rest.
Proof.
  intros W D. induction D as [|fo fos D1 D2 IH]; [exists []; split; constructor|].
  destruct IH as (fos' & F & G). simpl.
  enough (X : exists fo', recanon j fo fo' /\
            group j (fo_words fo ++ flat_map fo_words fos ++ rest) [fo'] (flat_map fo_words fos ++ rest)).
  { destruct X as (fo' & R & G1). exists (fo' :: fos'). split; [constructor; auto|].
    rewrite <- app_assoc. apply (groups_cons j _ [fo'] (flat_map fo_words fos ++ rest) fos' rest); auto. }
  assert (NE := proj2 (proj2 (proj2 W))).
  destruct fo as [n|n a]; simpl in *.
  - destruct (canonical_total (map spellings (j_flag j)) n) as (p & Hp).
    exists (Flag p). split; [eauto|]. apply group_flag; auto.
  - exists (Option_ n a). split; [auto|]. destruct D1 as (e & others & He & En).
    assert (O : option_declared j n) by (exists e; rewrite En; simpl; auto).
    apply group_option; auto.
    + intros X. eapply well_formed_disjoint; eauto.
    + eapply option_canonical_in_entry; eauto; [|simpl; auto].
      destruct (well_formed_options j W); auto.
Qed.

Lemma Forall2_diag {A} (R : A -> A -> Prop) l : Forall2 R l l -> forall x, In x l -> R x x.
Proof.
  induction l as [|a l IH]; intros F x Hx; [destruct Hx|].
  inversion F; subst. destruct Hx as [->|Hx]; auto.
Qed.

Lemma reparse_iff j ws fos ops :
  well_formed j -> parse_words j ws = (fos, ops) ->
  (parse_words j (flat_map fo_words fos ++ ops) = (fos, ops) <->
   forall n, In (Flag n) fos -> flag_canonical j n n).
Proof.
  intros W E. assert (D := parse_names_declared _ _ _ _ E).
  destruct (groups_rewritten_general j fos ops W D) as (fos' & F & G).
  apply parse_words_iff_segments in E. destruct E as [_ S].
  assert (E' : parse_words j (flat_map fo_words fos ++ ops) = (fos', ops))
    by (apply parse_words_iff_segments; split; auto).
  rewrite E'. clear -F. split.
  - intros [= ->]. intros n Hn. destruct (Forall2_diag _ _ F _ Hn) as (p & Hp & [= <-]). auto.
  - intros H. f_equal. induction F as [|x y l l' R F IH]; auto.
    f_equal.
    + destruct x as [n|n a]; simpl in R; [|auto]. destruct R as (p & Hp & ->).
      f_equal. eapply canonical_fun; eauto. apply H. simpl. auto.
    + apply IH. intros n Hn. apply H. simpl. auto.
Qed.

Lemma reparse_inv_iff dir s inv j :
  parse dir s = Ok inv -> loads dir (cmd_name inv) j -> well_formed j ->
  (parse dir (shlex_join (inv_words inv)) = Ok inv <->
   forall n, In (Flag n) (flag_option_list inv) -> flag_canonical j n n).
Proof.
  intros E L W. apply parse_iff in E. destruct E as (words & j' & H1 & H2 & H3).
  rewrite <- get_json_data_ok in L, H2. assert (j' = j) by congruence. subst j'.
  apply parse_words_iff_segments in H3. rewrite <- (reparse_iff j words _ _ W H3).
  apply get_json_data_ok in L. split.
  - intros E. apply parse_iff in E. destruct E as (words' & j' & T & L' & S).
    rewrite <- split_iff_tokenises in T. rewrite split_join in T. injection T as <-.
    rewrite <- get_json_data_ok in L, L'. assert (j' = j) by congruence. subst j'.
    apply parse_words_iff_segments. exact S.
  - intros E. eapply parse_written; eauto. apply join_tokenises.
Qed.

(** ** The properties at the level of [parse] *)
Lemma parse_of_words dir s name ws j :
  tokenises s (name :: ws) -> loads dir name j ->
  parse dir s = let '(fos, ops) := parse_words j ws in Ok (mkInv name fos ops).
Proof.
  intros T L. unfold parse. apply split_iff_tokenises in T. apply get_json_data_ok in L.
  rewrite T. simpl. rewrite L. reflexivity.
Qed.

Lemma parse_operands_start dir s inv j : parse dir s = Ok inv -> loads dir (cmd_name inv) j ->
  exists pre, tokenises s (cmd_name inv :: pre ++ operand_list inv) /\
    groups j (pre ++ operand_list inv) (flag_option_list inv) (operand_list inv) /\
    operands_start j (operand_list inv).
Proof.
  intros E L. apply parse_iff in E. destruct E as (ws & j' & T & L' & G & S).
  rewrite <- get_json_data_ok in L, L'. assert (j' = j) by congruence. subst j'.
  destruct (groups_suffix _ _ _ _ G) as (pre & ->). eauto.
Qed.

Lemma parse_operands_opaque dir s s' name j pre w w2 rest rest' fos :
  loads dir name j ->
  tokenises s (name :: pre ++ w :: w2 :: rest) ->
  parse dir s = Ok (mkInv name fos (w :: w2 :: rest)) ->
  rest' <> [] -> tokenises s' (name :: pre ++ w :: rest') ->
  parse dir s' = Ok (mkInv name fos (w :: rest')).
Proof.
  intros L T E N T'. rewrite (parse_of_words _ _ _ _ _ T L) in E.
  destruct (parse_words j (pre ++ w :: w2 :: rest)) as (fos', ops) eqn:P.
  injection E as -> ->.
  rewrite (parse_of_words _ _ _ _ _ T' L), (operands_opaque _ _ _ _ _ _ _ P N). reflexivity.
Qed.

Lemma parse_flag_synonyms dir s s' name j pre post fos w w' l :
  loads dir name j -> flags_unambiguous j -> In (FEList l) (j_flag j) -> In w l -> In w' l ->
  groups j (pre ++ w :: post) fos (w :: post) ->
  tokenises s (name :: pre ++ w :: post) -> tokenises s' (name :: pre ++ w' :: post) ->
  parse dir s = parse dir s'.
Proof.
  intros L U Hl Hw Hw' G T T'.
  rewrite (parse_of_words _ _ _ _ _ T L), (parse_of_words _ _ _ _ _ T' L).
  rewrite (flag_synonyms _ _ _ _ _ _ _ U Hl Hw Hw' G). reflexivity.
Qed.

Lemma parse_option_synonyms dir s s' name j pre arg post fos w w' e :
  loads dir name j -> options_unambiguous j -> In e (j_option j) ->
  In w (oe_names e) -> In w' (oe_names e) -> ~ flag_declared j w -> ~ flag_declared j w' ->
  groups j (pre ++ w :: arg :: post) fos (w :: arg :: post) ->
  tokenises s (name :: pre ++ w :: arg :: post) ->
  tokenises s' (name :: pre ++ w' :: arg :: post) ->
  parse dir s = parse dir s'.
Proof.
  intros L U Hl Hw Hw' F F' G T T'.
  rewrite (parse_of_words _ _ _ _ _ T L), (parse_of_words _ _ _ _ _ T' L).
  rewrite (option_synonyms _ _ _ _ _ _ _ _ U Hl Hw Hw' F F' G). reflexivity.
Qed.

Lemma parse_bundle_split dir s s' name j pre post fos w cs :
  loads dir name j ->
  bundle j w cs -> ~ flag_declared j w -> (option_declared j w -> post = []) ->
  (forall c, In c cs -> flag_canonical j (letter_flag c) (letter_flag c)) ->
  groups j (pre ++ w :: post) fos (w :: post) ->
  tokenises s (name :: pre ++ w :: post) ->
  tokenises s' (name :: pre ++ map letter_flag cs ++ post) ->
  parse dir s = parse dir s'.
Proof.
  intros L B NF NO C G T T'.
  rewrite (parse_of_words _ _ _ _ _ T L), (parse_of_words _ _ _ _ _ T' L).
  rewrite (bundle_split _ _ _ _ _ _ B NF NO C G). reflexivity.
Qed.

(** Without the side condition: the bundle keeps the letters, the separate words
    are canonicalised, and this is the only difference. *)
Lemma parse_bundle_general dir s s' name j pre post fos w cs :
  loads dir name j ->
  bundle j w cs -> ~ flag_declared j w -> (option_declared j w -> post = []) ->
  groups j (pre ++ w :: post) fos (w :: post) ->
  tokenises s (name :: pre ++ w :: post) ->
  tokenises s' (name :: pre ++ map letter_flag cs ++ post) ->
  exists ps fos' ops,
    Forall2 (fun c p => flag_canonical j (letter_flag c) p) cs ps /\
    parse dir s = Ok (mkInv name (fos ++ map (fun c => Flag (letter_flag c)) cs ++ fos') ops) /\
    parse dir s' = Ok (mkInv name (fos ++ map Flag ps ++ fos') ops).
Proof.
  intros L B NF NO G T T'.
  rewrite (parse_of_words _ _ _ _ _ T L), (parse_of_words _ _ _ _ _ T' L).
  destruct (groups_letters_general j cs post (proj2 (proj2 B))) as (ps & F & Gl).
  destruct (parse_words j post) as (fos', ops) eqn:P.
  exists ps, fos', ops. split; auto.
  rewrite (pw_group_after _ _ _ _ _ post G (group_bundle j w cs post NF NO B)), P.
  assert (G' : groups j (pre ++ map letter_flag cs ++ post) fos (map letter_flag cs ++ post)).
  { eapply groups_swap; eauto. destruct B as (Hne & _). destruct cs; [congruence|].
    split; discriminate. }
  rewrite (pw_groups _ _ _ _ (groups_app _ _ _ _ _ _ G' Gl)), P, <- app_assoc. auto.
Qed.

Lemma parse_option_consumes dir s name j ws fos w arg rest p :
  loads dir name j -> tokenises s (name :: ws) ->
  groups j ws fos (w :: arg :: rest) ->
  w <> "" -> ~ flag_declared j w -> option_declared j w -> option_canonical j w p ->
  exists fos' ops, segments j rest fos' ops /\
    parse dir s = Ok (mkInv name (fos ++ Option_ p arg :: fos') ops).
Proof.
  intros L T G H1 H2 H3 H4. rewrite (parse_of_words _ _ _ _ _ T L).
  destruct (option_consumes _ _ _ _ _ _ _ G H1 H2 H3 H4) as (fos' & ops & E & ->).
  exists fos', ops. rewrite <- parse_words_iff_segments. auto.
Qed.

Lemma parse_trailing_option dir s name j ws fos w :
  loads dir name j -> tokenises s (name :: ws) -> groups j ws fos [w] -> ~ flag_declared j w ->
  (parse dir s = Ok (mkInv name fos [w]) /\ forall cs, ~ bundle j w cs) \/
  (exists cs, bundle j w cs /\
     parse dir s = Ok (mkInv name (fos ++ map (fun c => Flag (letter_flag c)) cs) [])).
Proof.
  intros L T G NF. rewrite (parse_of_words _ _ _ _ _ T L).
  destruct (trailing_option _ _ _ _ G NF) as [[-> B]|(cs & B & ->)]; [left|right]; eauto.
Qed.

Lemma parse_unknown dir s name ws j :
  tokenises s (name :: ws) -> dir (name +++ ".json") = FNotFound ->
  dir default_file = FFound j -> j_flag j = [] -> j_option j = [] ->
  parse dir s = Ok (mkInv name [] ws).
Proof.
  intros T N D F O. rewrite (parse_of_words dir s name ws j T (or_intror (conj N D))).
  rewrite no_data_all_operands; auto.
Qed.

Lemma parse_declared dir s inv j fo :
  parse dir s = Ok inv -> loads dir (cmd_name inv) j -> In fo (flag_option_list inv) ->
  match fo with
  | Flag n => flag_declared j n
  | Option_ n _ => exists e others, In e (j_option j) /\ oe_names e = n :: others
  end.
Proof.
  intros E L H. apply parse_iff in E. destruct E as (ws & j' & T & L' & S).
  rewrite <- get_json_data_ok in L, L'. assert (j' = j) by congruence. subst j'.
  apply parse_words_iff_segments, parse_names_declared in S.
  apply (proj1 (Forall_forall _ _) S fo H).
Qed.
