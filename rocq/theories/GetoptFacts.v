(** * Lemmas for the comparison of the parser with getopt_long *)
Require Import Verif.PyBase Verif.JsonData Verif.Parser Verif.SpecParser Verif.ParserFacts Verif.SpecGetopt.
From Coq Require Import Lia.

(** ** Boolean checks on one command's data *)
Definition spelled (g : opt_group) (n : string) : bool := existsb (fun p => String.eqb (fst p) n) g.
Fixpoint has_char (c : ascii) (s : string) : bool :=
  match s with EmptyString => false | String d s => Ascii.eqb c d || has_char c s end.
Definition word_ok (w : string) : bool :=
  match w with
  | String a (String c r) =>
      Ascii.eqb a "-" && if Ascii.eqb c "-" then negb (String.eqb r "") && negb (has_char "=" r) else String.eqb r ""
  | _ => false
  end.
Definition is_letter (w : string) : bool := match w with String _ (String _ EmptyString) => true | _ => false end.
Definition is_operand (w : string) : bool :=
  match w with EmptyString => true | String c r => negb (Ascii.eqb c "-") || String.eqb r "" end.
Definition is_required (a : arity) : bool := match a with Required => true | _ => false end.
Definition T_words (T : list opt_group) : list string := flat_map (map fst) T.
Fixpoint nodupb (l : list string) : bool :=
  match l with [] => true | x :: l => negb (mem x l) && nodupb l end.

Section Checks.
  Context (j : json_data) (T : list opt_group) (bad : list string).
  Let fl := get_set_of_all_flags j.
  Let fd := get_dict_flag_to_primary_repr j.
  Let op := get_set_of_all_options j.
  Let od := get_dict_option_to_primary_repr j.
  Definition agree (g : opt_group) (w : string) (a : arity) : bool :=
    if is_required a then negb (mem w fl) && mem w op && spelled g (dict_get_default od w w)
    else mem w fl && spelled g (dict_get_default fd w w).
  Definition check_spelling (g : opt_group) (p : string * arity) : bool :=
    let (w, a) := p in
    word_ok w && Bool.eqb (mem w bad) (negb (agree g w a)) &&
    (negb (is_letter w) || is_required a || Bool.eqb (mem w fl) (negb (mem w bad))).
  Definition check_extra (w : string) : bool :=
    mem w (T_words T) ||
    (mem w bad &&
     if is_operand w then forallb (fun g => negb (spelled g (dict_get_default fd w w))) T
     else match w with
          | String _ (String c (String _ _)) =>
              negb (Ascii.eqb c "-") &&
              forallb (fun g => negb (spelled g (letter_flag c) && spelled g (dict_get_default fd w w))) T
          | _ => false
          end) ||
    (is_letter w && negb (is_operand w)).
  Definition check : bool :=
    forallb (fun g => forallb (check_spelling g) g) T && forallb check_extra fl &&
    forallb (fun w => mem w (T_words T)) op && nodupb (T_words T) &&
    negb (mem "--" fl) && negb (mem "--" op) && forallb (fun w => negb (has_char "=" w)) (fl ++ op) &&
    forallb (fun w => negb (String.eqb w "") && (mem w (T_words T) || mem w fl)) bad.
End Checks.

Lemma nodupb_NoDup l : nodupb l = true -> NoDup l.
Proof.
  induction l as [|x l IH]; cbn; [constructor|]. intros H. apply andb_prop in H as [A B].
  constructor; [|auto]. apply negb_true_iff in A. now apply mem_not_In.
Qed.
Lemma spelled_In g n : spelled g n = true <-> exists a, In (n, a) g.
Proof.
  unfold spelled. rewrite existsb_exists. split.
  - intros ([m a] & I & E). apply String.eqb_eq in E. cbn in E. subst. eauto.
  - intros (a & I). exists (n, a). cbn. now rewrite String.eqb_refl.
Qed.
Lemma is_operand_iff w : is_operand w = true <-> operand_word w.
Proof.
  unfold operand_word. destruct w as [|c r]; cbn.
  - split; [intros _ r H; discriminate|auto].
  - rewrite orb_true_iff, negb_true_iff, Ascii.eqb_neq, String.eqb_eq. split.
    + intros [H|H] r' E; injection E as -> ->; congruence.
    + intros H. destruct (Ascii.ascii_dec c "-") as [->|N]; [right; now apply H|now left].
Qed.
Lemma has_char_app c s t : has_char c (s +++ t) = has_char c s || has_char c t.
Proof. induction s as [|d s IH]; cbn; [reflexivity|]. now rewrite IH, orb_assoc. Qed.
Lemma str_assoc (a b c : string) : (a +++ b) +++ c = a +++ b +++ c.
Proof. induction a as [|x a IH]; cbn; [reflexivity|]. now rewrite IH. Qed.
Lemma T_words_In T w : In w (T_words T) <-> exists g a, In g T /\ In (w, a) g.
Proof.
  unfold T_words. rewrite in_flat_map. split.
  - intros (g & G & I). apply in_map_iff in I as ((w' & a) & E & I). cbn in E. subst. eauto.
  - intros (g & a & G & I). exists g. split; [exact G|]. apply in_map_iff. exists (w, a). auto.
Qed.
Lemma NoDup_app_disjoint {A} (l l' : list A) x : NoDup (l ++ l') -> In x l -> In x l' -> False.
Proof.
  induction l as [|y l IH]; cbn; [tauto|]. intros H [->|I] I'; inversion H; subst; [|auto].
  apply H2. apply in_or_app. auto.
Qed.
Lemma NoDup_app_l {A} (l l' : list A) : NoDup (l ++ l') -> NoDup l.
Proof. induction l as [|x l IH]; cbn; intros H; [constructor|]. inversion H; subst. constructor; [|auto]. rewrite in_app_iff in *. tauto. Qed.
Lemma NoDup_app_r {A} (l l' : list A) : NoDup (l ++ l') -> NoDup l'.
Proof. induction l as [|x l IH]; cbn; intros H; [exact H|]. inversion H; auto. Qed.
Lemma NoDup_map_fst (g : opt_group) : forall w a a', NoDup (map fst g) -> In (w, a) g -> In (w, a') g -> a = a' :> arity.
Proof.
  induction g as [|(x, b) g IH]; intros w a a' N I I'; [destruct I|]. cbn in N. inversion N as [|? ? X N']; subst.
  assert (Q : forall c, In (w, c) g -> In w (map fst g)).
  { intros c C. apply in_map_iff. exists (w, c). auto. }
  destruct I as [I|I], I' as [I'|I'].
  - congruence.
  - injection I as -> ->. apply Q in I'. contradiction.
  - injection I' as -> ->. apply Q in I. contradiction.
  - eauto.
Qed.
Lemma T_unique T : NoDup (T_words T) -> forall g g' w a a',
  In g T -> In (w, a) g -> In g' T -> In (w, a') g' -> g = g' /\ a = a'.
Proof.
  unfold T_words. induction T as [|g0 T IH]; intros N g g' w a a' G I G' I'; [destruct G|]. cbn in N.
  assert (Q : forall (h : opt_group) c, In (w, c) h -> In w (map fst h)).
  { intros h c C. apply in_map_iff. exists (w, c). auto. }
  assert (R : forall (h : opt_group) c, In h T -> In (w, c) h -> In w (flat_map (map fst) T)).
  { intros h c Hh C. apply in_flat_map. exists h. eauto. }
  destruct G as [->|G], G' as [->|G'].
  - split; [reflexivity|]. apply NoDup_app_l in N. eapply NoDup_map_fst; eauto.
  - exfalso. eapply NoDup_app_disjoint; eauto.
  - exfalso. eapply NoDup_app_disjoint; eauto.
  - eapply IH; eauto. now apply NoDup_app_r in N.
Qed.

(** ** The comparison *)
Section Compare.
  Context (j : json_data) (T : list opt_group) (permutes : bool) (bad : list string).
  Context (C : check j T bad = true).
  Let fl := get_set_of_all_flags j.
  Let fd := get_dict_flag_to_primary_repr j.
  Let op := get_set_of_all_options j.
  Let od := get_dict_option_to_primary_repr j.

  Lemma c_all : (forall g w a, In g T -> In (w, a) g ->
                   word_ok w = true /\ mem w bad = negb (agree j g w a) /\
                   (is_letter w = true -> a <> Required -> mem w fl = negb (mem w bad))) /\
                (forall w, In w fl -> check_extra j T bad w = true) /\
                (forall w, In w op -> In w (T_words T)) /\ NoDup (T_words T) /\
                mem "--" fl = false /\ mem "--" op = false /\
                (forall w, In w fl \/ In w op -> has_char "=" w = false) /\
                (forall w, In w bad -> w <> "" /\ (In w (T_words T) \/ mem w fl = true)).
  Proof.
    pose proof C as H. unfold check in H. fold fl op in H. rewrite !andb_true_iff in H.
    destruct H as (((((((A & B) & D) & E) & F) & G) & I) & K). rewrite negb_true_iff in *.
    split.
    { intros g w a Hg Hw. rewrite forallb_forall in A. specialize (A g Hg). rewrite forallb_forall in A.
      specialize (A (w, a) Hw). unfold check_spelling in A. fold fl in A. rewrite !andb_true_iff in A.
      destruct A as ((A1 & A2) & A3). apply Bool.eqb_prop in A2. repeat split; [exact A1|exact A2|].
      intros L R. rewrite L in A3. cbn in A3. destruct a; [|congruence|]; cbn in A3; now apply Bool.eqb_prop in A3. }
    split; [intros w W; now apply (proj1 (forallb_forall _ _) B)|].
    split; [intros w W; apply mem_In; now apply (proj1 (forallb_forall _ _) D)|].
    split; [now apply nodupb_NoDup|]. split; [exact F|]. split; [exact G|]. split.
    - intros w W. apply in_or_app in W. apply negb_true_iff. now apply (proj1 (forallb_forall _ _) I).
    - intros w W. apply (proj1 (forallb_forall _ _) K) in W. cbv beta in W.
      apply andb_prop in W as [W' W]. split; [apply String.eqb_neq; now apply negb_true_iff|].
      apply orb_prop in W as [W|W]; [left; now apply mem_In|auto].
  Qed.

  Lemma word_of g w a : In g T -> In (w, a) g -> word_ok w = true.
  Proof. intros G I. now apply (proj1 c_all) in I as (H & _). Qed.
  Lemma bad_of g w a : In g T -> In (w, a) g -> mem w bad = negb (agree j g w a).
  Proof. intros G I. now apply (proj1 c_all) in I as (_ & H & _). Qed.
  Lemma letter_of c g a : In g T -> In (letter_flag c, a) g -> a <> Required -> mem (letter_flag c) fl = negb (mem (letter_flag c) bad).
  Proof. intros G I R. apply (proj1 c_all) in I as (_ & _ & H); auto. Qed.
  Lemma unique : forall g g' w a a', In g T -> In (w, a) g -> In g' T -> In (w, a') g' -> g = g' /\ a = a'.
  Proof. apply T_unique. apply c_all. Qed.
  Lemma no_dashes : mem "--" fl = false.
  Proof. apply c_all. Qed.

  (** Unfolding the parser by one word. *)
  Lemma parse_nil : parse_words j [] = ([], []).
  Proof. reflexivity. Qed.
  Lemma parse_flag w ws : w <> "" -> mem w fl = true ->
    parse_words j (w :: ws) = (Flag (dict_get_default fd w w) :: fst (parse_words j ws), snd (parse_words j ws)).
  Proof.
    intros N M. unfold parse_words. cbn [parse_loop]. fold fl fd op od. rewrite (proj2 (String.eqb_neq w "") N), M.
    now destruct (parse_loop fl fd op od ws).
  Qed.
  Lemma parse_option w a ws : w <> "" -> mem w fl = false -> mem w op = true ->
    parse_words j (w :: a :: ws) = (Option_ (dict_get_default od w w) a :: fst (parse_words j ws), snd (parse_words j ws)).
  Proof.
    intros N M O. unfold parse_words. cbn [parse_loop]. fold fl fd op od. rewrite (proj2 (String.eqb_neq w "") N), M, O.
    now destruct (parse_loop fl fd op od ws).
  Qed.
  Lemma parse_stop w ws : mem w fl = false -> (mem w op = true -> ws = []) -> are_all_individually_flags w fl = false ->
    parse_words j (w :: ws) = ([], w :: ws).
  Proof.
    intros M O B. unfold parse_words. cbn [parse_loop]. fold fl fd op od. rewrite M, B.
    destruct (String.eqb w ""); [reflexivity|]. destruct (mem w op); [|reflexivity]. now rewrite O.
  Qed.
  Lemma parse_empty ws : parse_words j ("" :: ws) = ([], "" :: ws).
  Proof. reflexivity. Qed.
  Lemma parse_bundle w ws : w <> "" -> mem w fl = false -> mem w op = false -> are_all_individually_flags w fl = true ->
    parse_words j (w :: ws) = (bundle_flags w ++ fst (parse_words j ws), snd (parse_words j ws)).
  Proof.
    intros N M O B. unfold parse_words. cbn [parse_loop]. fold fl fd op od. rewrite (proj2 (String.eqb_neq w "") N), M, O, B.
    now destruct (parse_loop fl fd op od ws).
  Qed.

  Definition same (ws : list string) (os : list found) (ops : list string) : Prop :=
    Forall2 same_option (fst (parse_words j ws)) os /\ snd (parse_words j ws) = ops.

  Lemma agree_flag g w a : agree j g w a = true -> a <> Required -> mem w fl = true /\ spelled g (dict_get_default fd w w) = true.
  Proof. unfold agree. fold fl fd. intros H N. destruct a; [|congruence|]; cbn in H; now apply andb_prop in H. Qed.
  Lemma agree_option g w : agree j g w Required = true ->
    mem w fl = false /\ mem w op = true /\ spelled g (dict_get_default od w w) = true.
  Proof.
    unfold agree. fold fl od op. cbn. intros H. rewrite !andb_true_iff, negb_true_iff in H. tauto.
  Qed.
  Lemma ok_nonempty w : word_ok w = true -> w <> "".
  Proof. intros H ->. discriminate. Qed.
  Lemma ok_not_operand w : word_ok w = true -> ~ operand_word w.
  Proof.
    destruct w as [|a [|c r]]; cbn; try discriminate. rewrite andb_true_iff, Ascii.eqb_eq. intros (-> & _) O.
    now specialize (O _ eq_refl).
  Qed.
  (** A word of the manual that is no flag is no bundle either. *)
  Lemma ok_no_bundle w : word_ok w = true -> mem w fl = false -> are_all_individually_flags w fl = false.
  Proof.
    destruct w as [|a [|c r]]; cbn [word_ok]; try discriminate. rewrite andb_true_iff, Ascii.eqb_eq. intros (-> & H) M.
    unfold are_all_individually_flags. cbn [negb Ascii.eqb]. destruct (_ || _); [reflexivity|].
    cbn [chars forallb]. destruct (Ascii.eqb c "-") eqn:E.
    - apply Ascii.eqb_eq in E as ->. change ("-" +++ one_char "-") with "--". now rewrite no_dashes.
    - apply String.eqb_eq in H as ->. change ("-" +++ one_char c) with (String "-" (String c "")). now rewrite M.
  Qed.

  (** An option without argument *)
  Lemma step_flag g w a ws os ops : In g T -> In (w, a) g -> a <> Required ->
    (same (w :: ws) ((g, None) :: os) ops <-> ~ In w bad /\ same ws os ops).
  Proof.
    intros G I R. pose proof (word_of _ _ _ G I) as W. pose proof (bad_of _ _ _ G I) as B. unfold same.
    rewrite <- mem_not_In, B, negb_false_iff. split.
    - intros (F & O). destruct (mem w fl) eqn:M.
      + rewrite parse_flag in F, O by (auto using ok_nonempty). cbn in F, O. inversion F as [|? ? ? ? S F']; subst.
        split; [|auto]. inversion S as [n g' ar X|]; subst. unfold agree. fold fl fd. rewrite M.
        assert (Sp : spelled g (dict_get_default fd w w) = true) by (apply spelled_In; eauto).
        destruct a; [|congruence|]; cbn; exact Sp.
      + exfalso. destruct (mem w op) eqn:Q; [destruct ws as [|x ws]|].
        * rewrite parse_stop in F by (auto using ok_no_bundle). inversion F.
        * rewrite parse_option in F by (auto using ok_nonempty). inversion F as [|? ? ? ? S F']. inversion S.
        * rewrite parse_stop in F by (try congruence; auto using ok_no_bundle). inversion F.
    - intros (A & F & O). apply agree_flag in A as (M & S); [|exact R].
      rewrite parse_flag by (auto using ok_nonempty). cbn. split; [|exact O]. constructor; [|exact F].
      apply spelled_In in S as (b & S). econstructor; eauto.
  Qed.
  (** An option with its argument in the next word *)
  Lemma step_option g w x ws os ops : In g T -> In (w, Required) g ->
    (same (w :: x :: ws) ((g, Some x) :: os) ops <-> ~ In w bad /\ same ws os ops).
  Proof.
    intros G I. pose proof (word_of _ _ _ G I) as W. pose proof (bad_of _ _ _ G I) as B. unfold same.
    rewrite <- mem_not_In, B, negb_false_iff. split.
    - intros (F & O). destruct (mem w fl) eqn:M.
      + exfalso. rewrite parse_flag in F by (auto using ok_nonempty). cbn in F. inversion F as [|? ? ? ? S F']. inversion S.
      + destruct (mem w op) eqn:Q.
        * rewrite parse_option in F, O by (auto using ok_nonempty). cbn in F, O. inversion F as [|? ? ? ? S F']; subst.
          split; [|auto]. inversion S as [|n g' ar y X]; subst. unfold agree. fold fl od op. rewrite M, Q. cbn.
          apply spelled_In; eauto.
        * exfalso. rewrite parse_stop in F by (try congruence; auto using ok_no_bundle). inversion F.
    - intros (A & F & O). apply agree_option in A as (M & Q & S).
      rewrite parse_option by (auto using ok_nonempty). cbn. split; [|exact O]. constructor; [|exact F].
      apply spelled_In in S as (b & S). econstructor; eauto.
  Qed.

  (** Several letters *)
  Lemma letters_all cs next os' f os : letters T cs next os' ->
    forallb (fun ch => mem ("-" +++ ch) fl) (chars cs) = true ->
    Forall2 same_option (map (fun ch => Flag ("-" +++ ch)) (chars cs) ++ f) (os' ++ os) ->
    next = None /\ bundled T bad cs /\ Forall2 same_option f os.
  Proof.
    assert (L : forall c g a, In g T -> In (letter_flag c, a) g -> a <> Required -> mem ("-" +++ one_char c) fl = true ->
              ~ In (letter_flag c) bad).
    { intros c g a G I R M. change ("-" +++ one_char c) with (letter_flag c) in M.
      rewrite (letter_of _ _ _ G I R), negb_true_iff in M. now apply mem_not_In. }
    intros H. induction H as [c g a G I R|c cs next os' g G I H IH|c cs g a G I R N|c g x G I];
      cbn [chars forallb map app]; intros M F; apply andb_prop in M as [M M'];
      inversion F as [|? ? ? ? S F']; subst; clear F.
    - repeat split; [|exact F']. eapply bundled_last; eauto.
    - destruct (IH M' F') as (-> & B & Q). repeat split; [|exact Q]. eapply bundled_more; eauto. eapply L; eauto. discriminate.
    - inversion S.
    - inversion S.
  Qed.
  Lemma letters_bundled cs next os' : letters T cs next os' -> bundled T bad cs ->
    next = None /\ forallb (fun ch => mem ("-" +++ ch) fl) (chars cs) = true /\
    Forall2 same_option (map (fun ch => Flag ("-" +++ ch)) (chars cs)) os'.
  Proof.
    assert (L : forall c g a, In g T -> In (letter_flag c, a) g -> a <> Required -> ~ In (letter_flag c) bad ->
              mem ("-" +++ one_char c) fl = true).
    { intros c g a G I R M. change ("-" +++ one_char c) with (letter_flag c).
      rewrite (letter_of _ _ _ G I R), negb_true_iff. now apply mem_not_In. }
    intros H. induction H as [c g a G I R|c cs next os' g G I H IH|c cs g a G I R N|c g x G I]; intros B;
      cbn [chars forallb map].
    - assert (~ In (letter_flag c) bad) by (inversion B; assumption).
      rewrite (L _ _ _ G I R) by assumption. repeat split. constructor; [|constructor]. econstructor. exact I.
    - inversion B as [c' g' a' G' I' R' N' E|c' cs' g' G' I' N' B' E]; subst; [inversion H|].
      destruct (IH B') as (-> & M & F). rewrite (L _ _ _ G I ltac:(discriminate) N'), M. repeat split.
      constructor; [|exact F]. econstructor. exact I.
    - exfalso. inversion B as [c' g' a' G' I' R' N' E|c' cs' g' G' I' N' B' E]; subst; [congruence|].
      destruct (unique _ _ _ _ _ G I G' I') as (_ & ->). congruence.
    - exfalso. inversion B as [c' g' a' G' I' R' N' E|c' cs' g' G' I' N' B' E]; subst.
      + destruct (unique _ _ _ _ _ G I G' I') as (_ & <-). congruence.
      + inversion B'.
  Qed.
  Lemma letters_head cs next os' : letters T cs next os' ->
    exists c r g x os1, cs = String c r /\ os' = (g, x) :: os1 /\ In g T /\ exists a, In (letter_flag c, a) g.
  Proof. intros H; inversion H; subst; do 5 eexists; repeat split; eauto. Qed.
  Lemma letters_single cs next os' : letters T cs next os' -> String.length cs <= 1 ->
    exists g a, In g T /\ In (String "-" cs, a) g /\
      ((a <> Required /\ next = None /\ os' = [(g, None)]) \/
       (a = Required /\ exists x, next = Some x /\ os' = [(g, Some x)])).
  Proof.
    intros H L. inversion H as [c g a G I R|c cs' nx os1 g G I H'|c cs' g a G I R N|c g x G I]; subst.
    - exists g, a. repeat split; auto.
    - exfalso. cbn in L. inversion H'; subst; cbn in L; lia.
    - exfalso. destruct cs' as [|d r]; [congruence|]. cbn in L. lia.
    - exists g, Required. repeat split; eauto 6.
  Qed.

  Lemma long_ok w : word_ok w = true -> forall cs, w = String "-" cs -> String.length cs > 1 -> exists r, cs = String "-" r.
  Proof.
    intros H cs -> L. destruct cs as [|c r]; cbn in L; [lia|]. cbn in H.
    destruct (Ascii.eqb c "-") eqn:E; [apply Ascii.eqb_eq in E as ->; eauto|].
    apply String.eqb_eq in H as ->. cbn in L. lia.
  Qed.
  Lemma T_not_cluster cs next os' : letters T cs next os' -> String.length cs > 1 ->
    forall g a, In g T -> ~ In (String "-" cs, a) g.
  Proof.
    intros H L g a G I. destruct (long_ok _ (word_of _ _ _ G I) _ eq_refl L) as (r & ->).
    destruct (letters_head _ _ _ H) as (c & r' & g' & x & os1 & E & _ & G' & a' & I'). injection E as <- <-.
    apply (word_of _ _ _ G') in I'. discriminate.
  Qed.
  Definition flags_of (cs : string) : list flag_option := map (fun ch => Flag ("-" +++ ch)) (chars cs).
  Lemma step_letters cs next os' ws os : letters T cs next os' -> String.length cs > 1 ->
    forall ops, same (String "-" cs :: ws) (os' ++ os) ops <->
      bundled T bad cs /\ ~ In (String "-" cs) bad /\ next = None /\ same ws os ops.
  Proof.
    intros H L ops. pose proof (T_not_cluster _ _ _ H L) as NT. set (w := String "-" cs) in *.
    assert (NW : ~ In w (T_words T)).
    { intros X. apply T_words_In in X as (g & a & G & I). exact (NT _ _ G I). }
    assert (NO : mem w op = false).
    { apply mem_not_In. intros X. apply NW. now apply c_all. }
    assert (NE : w <> "") by discriminate.
    destruct (letters_head _ _ _ H) as (c & r & g & x & os1 & E & Eo & G & a & I).
    unfold same. destruct (mem w fl) eqn:M.
    - (* declared as such *)
      assert (X : check_extra j T bad w = true) by (apply c_all; now apply mem_In).
      unfold check_extra in X. rewrite (proj2 (mem_not_In _ _) NW) in X. cbn [orb] in X.
      assert (OP : is_operand w = false) by (unfold w; rewrite E; reflexivity). rewrite OP in X.
      assert (SL : is_letter w = false) by (unfold w; destruct cs as [|? [|? ?]]; [discriminate| |reflexivity]; cbn in L; lia).
      rewrite SL, orb_false_r in X. apply andb_prop in X as [X1 X2]. apply mem_In in X1.
      split; [|tauto]. intros (F & _). exfalso. rewrite parse_flag in F by auto. cbn in F. rewrite Eo in F.
      inversion F as [|? ? ? ? S _]; subst. inversion S as [n g' ar J|]; subst.
      unfold w in X2. destruct r as [|d r]; [cbn in L; lia|]. cbn [is_operand] in X2.
      apply andb_prop in X2 as [_ X2]. rewrite forallb_forall in X2. specialize (X2 g G).
      rewrite negb_true_iff in X2. apply andb_false_iff in X2 as [X2|X2].
      + rewrite (proj2 (spelled_In _ _)) in X2 by eauto. discriminate.
      + fold fd in X2. rewrite (proj2 (spelled_In _ _)) in X2 by eauto. discriminate.
    - assert (NB : ~ In w bad).
      { intros X. apply c_all in X as (_ & [X|X]); congruence. }
      assert (AI : are_all_individually_flags w fl = forallb (fun ch => mem ("-" +++ ch) fl) (chars cs)).
      { unfold w, are_all_individually_flags. rewrite E. reflexivity. }
      destruct (forallb (fun ch => mem ("-" +++ ch) fl) (chars cs)) eqn:Q.
      + rewrite parse_bundle by auto. cbn [fst snd]. change (bundle_flags w) with (flags_of cs). split.
        * intros (F & O). destruct (letters_all _ _ _ _ _ H Q F) as (-> & B & F'). auto.
        * intros (B & _ & -> & F & O). destruct (letters_bundled _ _ _ H B) as (_ & _ & F'). split; [|exact O].
          now apply Forall2_app.
      + rewrite parse_stop by (auto; congruence). split.
        * intros (F & _). exfalso. cbn in F. rewrite Eo in F. inversion F.
        * intros (B & _). exfalso. destruct (letters_bundled _ _ _ H B) as (_ & M' & _). congruence.
  Qed.

  (** ** Plain lines, word by word *)
  Lemma plain_T g w a ws : In g T -> In (w, a) g -> a <> Required ->
    (plain T permutes bad (w :: ws) <-> ~ In w bad /\ plain T permutes bad ws).
  Proof.
    intros G I R. pose proof (word_of _ _ _ G I) as W. split.
    - intros P. inversion P as [|w' ws' O|w' g' a' ws' G' I' R' N' P'|w' g' x ws' G' I' N' P'|cs ws' L B N' P']; subst.
      + exfalso. now apply ok_not_operand in W.
      + auto.
      + destruct (unique _ _ _ _ _ G I G' I') as (_ & ->). congruence.
      + auto.
    - intros (N & P). eapply plain_option; eauto.
  Qed.
  Lemma plain_T_arg g w x ws : In g T -> In (w, Required) g ->
    (plain T permutes bad (w :: x :: ws) <-> ~ In w bad /\ plain T permutes bad ws).
  Proof.
    intros G I. pose proof (word_of _ _ _ G I) as W. split.
    - intros P. inversion P as [|w' ws' O|w' g' a' ws' G' I' R' N' P'|w' g' x' ws' G' I' N' P'|cs ws' L B N' P']; subst.
      + exfalso. now apply ok_not_operand in W.
      + destruct (unique _ _ _ _ _ G I G' I') as (_ & <-). congruence.
      + auto.
      + exfalso. destruct (long_ok _ W _ eq_refl L) as (r & ->).
        inversion B as [c g' a' G' I' R' N'' E|c cs g' G' I' N'' B' E]; subst; apply (word_of _ _ _ G') in I'; discriminate.
    - intros (N & P). eapply plain_option_arg; eauto.
  Qed.
  Lemma plain_word w ws : (forall g a, In g T -> ~ In (w, a) g) -> ~ operand_word w -> plain T permutes bad (w :: ws) ->
    exists cs, w = String "-" cs /\ String.length cs > 1 /\ bundled T bad cs /\ ~ In w bad /\ plain T permutes bad ws.
  Proof.
    intros N O P. inversion P as [|w' ws' O'|w' g' a' ws' G' I' R' N' P'|w' g' x' ws' G' I' N' P'|cs ws' L B N' P']; subst.
    - contradiction.
    - exfalso. exact (N _ _ G' I').
    - exfalso. exact (N _ _ G' I').
    - exists cs. auto.
  Qed.
  Lemma bundled_head cs : bundled T bad cs -> exists c r g a, cs = String c r /\ In g T /\ In (letter_flag c, a) g.
  Proof. intros B. inversion B; subst; do 4 eexists; eauto. Qed.
  Lemma no_dash_letter g a : In g T -> ~ In (letter_flag "-", a) g.
  Proof. intros G I. apply (word_of _ _ _ G) in I. discriminate. Qed.
  Lemma reads_all ws os ops : permutes = true -> reads T permutes ws os ops -> os = [] -> ops = ws -> Forall operand_word ws.
  Proof.
    intros P H. induction H as [|ws|w ws Q|w ws os ops Q O H IH|w g a ws os ops W G I R H IH|w g x ws os ops W G I H IH
      |n g a v ws os ops W G I R H IH|cs os' ws os ops L H IH|cs x os' ws os ops L H IH]; intros E E'; try discriminate.
    - constructor.
    - exfalso. apply (f_equal (@length _)) in E'. cbn in E'. lia.
    - congruence.
    - injection E' as E'. constructor; auto.
    - apply app_eq_nil in E as (-> & _). inversion L.
    - apply app_eq_nil in E as (-> & _). inversion L.
  Qed.
  Lemma reads_operands ws os ops : permutes = true -> reads T permutes ws os ops -> Forall operand_word ws -> os = [] /\ ops = ws.
  Proof.
    intros P H. induction H as [|ws|w ws Q|w ws os ops Q O H IH|w g a ws os ops W G I R H IH|w g x ws os ops W G I H IH
      |n g a v ws os ops W G I R H IH|cs os' ws os ops L H IH|cs x os' ws os ops L H IH]; intros F;
      inversion F as [|? ? O' F']; subst.
    - auto.
    - now specialize (O' _ eq_refl).
    - congruence.
    - destruct IH as (-> & ->); auto.
    - exfalso. apply (word_of _ _ _ G) in I. now apply ok_not_operand in I.
    - exfalso. apply (word_of _ _ _ G) in I. now apply ok_not_operand in I.
    - exfalso. destruct W as (r & ->). now specialize (O' _ eq_refl).
    - exfalso. specialize (O' _ eq_refl). subst. inversion L.
    - exfalso. specialize (O' _ eq_refl). subst. inversion L.
  Qed.
  Lemma long_no_bundle w : long_word w -> are_all_individually_flags w fl = false.
  Proof.
    intros (r & ->). pose proof no_dashes as D. unfold are_all_individually_flags. cbn [append].
    destruct (_ || _); [reflexivity|]. cbn [chars forallb]. change (mem (String "-" (one_char "-")) fl) with (mem "--" fl).
    now rewrite D.
  Qed.

  Lemma reads_groups ws os ops : reads T permutes ws os ops -> forall g x, In (g, x) os -> In g T.
  Proof.
    assert (L : forall cs nx os, letters T cs nx os -> forall g x, In (g, x) os -> In g T).
    { intros cs nx os' H. induction H; intros h y [E|E]; try (injection E as <- <-; assumption); try (now destruct E). eauto. }
    intros H. induction H; intros h y E; try (now destruct E); try (destruct E as [E|E]; [injection E as <- <-; assumption|]); eauto.
    - apply in_app_or in E as [E|E]; eauto.
    - apply in_app_or in E as [E|E]; eauto.
  Qed.
  Lemma step_operand w ws os ops : operand_word w -> (forall g x, In (g, x) os -> In g T) ->
    (same (w :: ws) os ops <-> ~ In w bad /\ os = [] /\ ops = w :: ws).
  Proof.
    intros O G.
    assert (NT : ~ In w (T_words T)).
    { intros X. apply T_words_In in X as (g & a & G' & I). apply (word_of _ _ _ G') in I. now apply ok_not_operand in I. }
    assert (St : ~ In w bad -> parse_words j (w :: ws) = ([], w :: ws) ->
                 (same (w :: ws) os ops <-> ~ In w bad /\ os = [] /\ ops = w :: ws)).
    { intros N E. unfold same. rewrite E. cbn. split.
      - intros (F & <-). inversion F. auto.
      - intros (_ & -> & ->). auto. }
    destruct (String.eqb_spec w "") as [->|NE].
    - apply St; [|apply parse_empty]. intros X. apply c_all in X as (X & _). congruence.
    - destruct (mem w fl) eqn:M.
      + assert (X : check_extra j T bad w = true) by (apply c_all; now apply mem_In).
        unfold check_extra in X. rewrite (proj2 (mem_not_In _ _) NT) in X. cbn [orb] in X.
        rewrite (proj2 (is_operand_iff w) O) in X. rewrite andb_false_r, orb_false_r in X.
        apply andb_prop in X as [X1 X2]. apply mem_In in X1. split; [|tauto]. intros (F & _). exfalso.
        rewrite parse_flag in F by auto. cbn in F. inversion F as [|? [g x] ? os1 S _]; subst.
        inversion S as [n g' ar J|]; subst. rewrite forallb_forall in X2. specialize (X2 g (G g None (or_introl eq_refl))).
        rewrite negb_true_iff in X2. fold fd in X2. rewrite (proj2 (spelled_In _ _)) in X2 by eauto. discriminate.
      + apply St.
        * intros X. apply c_all in X as (_ & [X|X]); congruence.
        * apply parse_stop; [exact M| |].
          -- intros X. exfalso. apply NT. apply c_all. now apply mem_In.
          -- unfold are_all_individually_flags. destruct w as [|c r]; [reflexivity|].
             destruct (Ascii.ascii_dec c "-") as [->|N].
             ++ now rewrite (O _ eq_refl).
             ++ now rewrite (proj2 (Ascii.eqb_neq c "-") N).
  Qed.
  Lemma plain_operand w ws : operand_word w ->
    (plain T permutes bad (w :: ws) <-> ~ In w bad /\ (permutes = true -> Forall operand_word ws)).
  Proof.
    intros O. split; [|intros (N & P); now apply plain_operands].
    intros P. inversion P as [|w' ws' O' N' F'|w' g' a' ws' G' I' R' N' P'|w' g' x' ws' G' I' N' P'|cs ws' L B N' P']; subst.
    - auto.
    - exfalso. apply (word_of _ _ _ G') in I'. now apply ok_not_operand in I'.
    - exfalso. apply (word_of _ _ _ G') in I'. now apply ok_not_operand in I'.
    - exfalso. specialize (O _ eq_refl). subst. cbn in L. lia.
  Qed.

  Theorem compare ws os ops : reads T permutes ws os ops -> (same ws os ops <-> plain T permutes bad ws).
  Proof.
    intros H. induction H as [|ws|w ws Q O|w ws os ops Q O H IH|w g a ws os ops W G I R H IH|w g x ws os ops W G I H IH
      |n g a v ws os ops W G I R H IH|cs os' ws os ops L H IH|cs x os' ws os ops L H IH].
    - split; [constructor|]. intros _. split; [constructor|reflexivity].
    - split.
      + intros (F & E). exfalso. rewrite parse_stop in E.
        * cbn in E. apply (f_equal (@length _)) in E. cbn in E. lia.
        * exact no_dashes.
        * intros X. assert (mem "--" op = false) by apply c_all. congruence.
        * apply long_no_bundle. exists "". reflexivity.
      + intros P. exfalso. apply plain_word in P as (cs & E & L & _).
        * injection E as <-. cbn in L. lia.
        * intros g a G I. apply (word_of _ _ _ G) in I. discriminate.
        * intros O. now specialize (O _ eq_refl).
    - rewrite step_operand, plain_operand by (auto; intros ? ? []). split; [|tauto].
      intros (N & _). split; [exact N|]. congruence.
    - rewrite step_operand, plain_operand by (auto; eapply reads_groups; eauto). split.
      + intros (N & E & E'). injection E' as E'. split; [exact N|]. intros _. eapply reads_all; eauto.
      + intros (N & F). destruct (reads_operands _ _ _ Q H (F Q)) as (-> & ->). auto.
    - rewrite (step_flag _ _ _ _ _ _ G I R), (plain_T _ _ _ _ G I R), IH. reflexivity.
    - rewrite (step_option _ _ _ _ _ _ G I), (plain_T_arg _ _ _ _ G I), IH. reflexivity.
    - assert (LW : long_word (n +++ "=" +++ v)).
      { destruct W as (r & ->). exists (r +++ "=" +++ v). now rewrite str_assoc. }
      assert (EQ : has_char "=" (n +++ "=" +++ v) = true).
      { rewrite has_char_app. cbn. apply orb_true_r. }
      assert (NF : forall l, (forall w, In w l -> In w fl \/ In w op) -> mem (n +++ "=" +++ v) l = false).
      { intros l Hl. apply mem_not_In. intros X. apply Hl in X. apply c_all in X. congruence. }
      split.
      + intros (F & _). exfalso. rewrite parse_stop in F.
        * inversion F.
        * apply NF. auto.
        * intros X. rewrite NF in X by auto. discriminate.
        * now apply long_no_bundle.
      + intros P. exfalso. apply plain_word in P as (cs & E & L & B & _).
        * apply bundled_head in B as (c & r & g' & a' & -> & G' & I'). destruct LW as (r' & LW). rewrite LW in E.
          injection E as <- _. exact (no_dash_letter _ _ G' I').
        * intros g' a' G' I'. apply (word_of _ _ _ G') in I'. destruct LW as (r' & LW). rewrite LW in *. cbn in I', EQ.
          rewrite EQ, andb_false_r in I'. discriminate.
        * intros O. destruct LW as (r' & LW). now specialize (O _ LW).
    - destruct (Nat.le_gt_cases (String.length cs) 1) as [S|S].
      + destruct (letters_single _ _ _ L S) as (g & a & G & I & [(R & _ & ->)|(_ & y & X & _)]); [|discriminate].
        cbn [app]. rewrite (step_flag _ _ _ _ _ _ G I R), (plain_T _ _ _ _ G I R), IH. reflexivity.
      + rewrite (step_letters _ _ _ _ _ L S), IH. split.
        * intros (B & N & _ & P). now apply plain_bundle.
        * intros P. apply plain_word in P as (cs' & E & _ & B & N & P).
          -- injection E as <-. auto.
          -- now apply (T_not_cluster _ _ _ L S).
          -- intros O. specialize (O _ eq_refl). subst. cbn in S. lia.
    - destruct (Nat.le_gt_cases (String.length cs) 1) as [S|S].
      + destruct (letters_single _ _ _ L S) as (g & a & G & I & [(R & X & _)|(-> & y & X & ->)]); [discriminate|].
        injection X as <-. cbn [app]. rewrite (step_option _ _ _ _ _ _ G I), (plain_T_arg _ _ _ _ G I), IH. reflexivity.
      + rewrite (step_letters _ _ _ _ _ L S). split.
        * intros (_ & _ & X & _). discriminate.
        * intros P. exfalso. apply plain_word in P as (cs' & E & _ & B & N & P).
          -- injection E as <-. destruct (letters_bundled _ _ _ L B) as (X & _). discriminate.
          -- now apply (T_not_cluster _ _ _ L S).
          -- intros O. specialize (O _ eq_refl). subst. cbn in S. lia.
  Qed.
End Compare.

(** ** A command line has at most one reading *)
Section Unique.
  Context (T : list opt_group) (permutes : bool).
  Context (N : nodupb (T_words T) = true) (K : forallb word_ok (T_words T) = true).
  Lemma u_word g w a : In g T -> In (w, a) g -> word_ok w = true.
  Proof. intros G I. apply (proj1 (forallb_forall _ _) K). apply T_words_In. eauto. Qed.
  Lemma u_unique g g' w a a' : In g T -> In (w, a) g -> In g' T -> In (w, a') g' -> g = g' /\ a = a'.
  Proof. apply T_unique. now apply nodupb_NoDup. Qed.
  Lemma letters_nonempty cs nx os : letters T cs nx os -> cs <> "" /\ forall r, cs <> String "-" r.
  Proof.
    intros H. split; [inversion H; discriminate|]. intros r ->.
    inversion H as [c g a G I|c cs nx' os' g G I|c cs g a G I|c g a G I]; subst; apply (u_word _ _ _ G) in I; discriminate.
  Qed.
  (** Either both need the next word or none does. *)
  Lemma letters_fun cs nx os : letters T cs nx os -> forall nx' os', letters T cs nx' os' ->
    (nx = None <-> nx' = None) /\ (nx = nx' -> os = os').
  Proof.
    intros H. induction H as [c g a G I R|c cs nx os g G I H IH|c cs g a G I R NE|c g x G I]; intros nx' os' H'.
    - inversion H' as [c' g' a' G' I' R'|c' cs' nx2 os2 g' G' I' H2|c' cs' g' a' G' I' R' NE'|c' g' x' G' I']; subst;
        destruct (u_unique _ _ _ _ _ G I G' I') as (<- & E).
      + split; [tauto|auto].
      + inversion H2.
      + congruence.
      + congruence.
    - inversion H' as [c' g' a' G' I' R'|c' cs' nx2 os2 g' G' I' H2|c' cs' g' a' G' I' R' NE'|c' g' x' G' I']; subst;
        destruct (u_unique _ _ _ _ _ G I G' I') as (<- & E).
      + inversion H.
      + destruct (IH _ _ H2) as (A & B). split; [exact A|]. intros X. now rewrite (B X).
      + congruence.
      + discriminate.
    - inversion H' as [c' g' a' G' I' R'|c' cs' nx2 os2 g' G' I' H2|c' cs' g' a' G' I' R' NE'|c' g' x' G' I']; subst;
        destruct (u_unique _ _ _ _ _ G I G' I') as (<- & E).
      + congruence.
      + congruence.
      + split; [tauto|auto].
      + congruence.
    - inversion H' as [c' g' a' G' I' R'|c' cs' nx2 os2 g' G' I' H2|c' cs' g' a' G' I' R' NE'|c' g' x' G' I']; subst;
        destruct (u_unique _ _ _ _ _ G I G' I') as (<- & E).
      + congruence.
      + discriminate.
      + congruence.
      + split; [split; discriminate|]. intros X. injection X as <-. reflexivity.
  Qed.
  Lemma split_eq n v m u : has_char "=" n = false -> has_char "=" m = false ->
    n +++ "=" +++ v = m +++ "=" +++ u -> n = m /\ v = u.
  Proof.
    revert m. induction n as [|c n IH]; intros [|d m]; cbn; intros A B E.
    - injection E as E. auto.
    - injection E as <- _. discriminate.
    - injection E as -> _. discriminate.
    - injection E as -> E. apply orb_false_iff in A as [_ A]. apply orb_false_iff in B as [_ B].
      destruct (IH m A B E) as (-> & ->). auto.
  Qed.
  Lemma long_no_eq n g a : long_word n -> In g T -> In (n, a) g -> has_char "=" n = false.
  Proof.
    intros (r & ->) G I. apply (u_word _ _ _ G) in I. cbn in I |- *. apply andb_prop in I as [_ I]. now apply negb_true_iff.
  Qed.
  Lemma long_not_operand w : long_word w -> ~ operand_word w.
  Proof. intros (r & ->) O. now specialize (O _ eq_refl). Qed.
  Lemma long_not_dashes w g a : In g T -> In (w, a) g -> w <> "--".
  Proof. intros G I ->. apply (u_word _ _ _ G) in I. discriminate. Qed.
  Lemma eq_not_dashes n v g a : In g T -> In (n, a) g -> n +++ "=" +++ v <> "--".
  Proof.
    intros G I E. apply (u_word _ _ _ G) in I. destruct n as [|c [|d r]]; cbn in *; try discriminate.
    injection E as -> -> E. destruct r; cbn in E; discriminate.
  Qed.
  Lemma eq_long n v : long_word n -> long_word (n +++ "=" +++ v).
  Proof. intros (r & ->). exists (r +++ "=" +++ v). now rewrite str_assoc. Qed.
  Lemma eq_no_word n v g a : In g T -> ~ In (n +++ "=" +++ v, a) g \/ ~ long_word n.
  Proof.
    intros G. destruct n as [|c [|d r]]; [right; intros (q & Q); discriminate|right; intros (q & Q); discriminate|].
    left. intros I. apply (u_word _ _ _ G) in I. cbn in I. rewrite has_char_app in I. cbn in I.
    rewrite orb_true_r, andb_false_r in I. rewrite andb_true_iff in I. destruct I as (_ & I).
    destruct (Ascii.eqb d "-"); [discriminate|]. apply String.eqb_eq in I. destruct r; discriminate.
  Qed.
  Lemma short_not_long cs nx os w : letters T cs nx os -> w = String "-" cs -> ~ long_word w.
  Proof. intros L -> (r & E). injection E as E. apply letters_nonempty in L as (_ & L). exact (L _ E). Qed.
  Lemma short_not_operand cs nx os : letters T cs nx os -> ~ operand_word (String "-" cs).
  Proof. intros L O. specialize (O _ eq_refl). apply letters_nonempty in L as (L & _). congruence. Qed.

  Theorem reads_fun ws os ops : reads T permutes ws os ops ->
    forall os' ops', reads T permutes ws os' ops' -> os = os' /\ ops = ops'.
  Proof.
    Ltac no := exfalso; match goal with
      | O : operand_word (?n +++ String "=" ?v) |- _ => apply (long_not_operand (n +++ "=" +++ v)); [now apply eq_long|exact O]
      | O : operand_word "--" |- _ => now specialize (O _ eq_refl)
      | O : operand_word ?w, W : long_word ?w |- _ => now apply (long_not_operand _ W)
      | O : operand_word (String "-" ?cs), L : letters _ ?cs _ _ |- _ => now apply (short_not_operand _ _ _ L)
      | G : In ?g T, I : In ("--", _) ?g |- _ => now apply (long_not_dashes _ _ _ G I)
      | L : letters _ "-" _ _ |- _ => apply letters_nonempty in L as (_ & L); now apply (L "")
      | L : letters _ ?cs _ _, W : long_word (String "-" ?cs) |- _ => now apply (short_not_long _ _ _ _ L eq_refl)
      | L : letters _ ?cs _ _, W : long_word ?n, E : ?n +++ String "=" ?v = String "-" ?cs |- _ =>
          apply (short_not_long _ _ _ (n +++ "=" +++ v) L E); now apply eq_long
      | L : letters _ ?cs _ _, W : long_word ?n, E : String "-" ?cs = ?n +++ String "=" ?v |- _ =>
          apply (short_not_long _ _ _ (n +++ "=" +++ v) L (eq_sym E)); now apply eq_long
      | E : ?n +++ String "=" ?v = "--", G : In ?g T, I : In (?n, _) ?g |- _ => exact (eq_not_dashes n v _ _ G I E)
      | E : "--" = ?n +++ String "=" ?v, G : In ?g T, I : In (?n, _) ?g |- _ => exact (eq_not_dashes n v _ _ G I (eq_sym E))
      | W : long_word ?n, G : In ?g T, I : In (?n +++ String "=" ?v, ?a) ?g |- _ =>
          destruct (eq_no_word n v g a G); contradiction
      | _ => congruence
      end.
    intros H. induction H as [|ws|w ws Q O|w ws os ops Q O H IH|w g a ws os ops W G I R H IH|w g x ws os ops W G I H IH
      |n g a v ws os ops W G I R H IH|cs os1 ws os ops L H IH|cs x os1 ws os ops L H IH]; intros os' ops' H';
    inversion H' as [|ws' E1|w' ws' Q' O' E1|w' ws' os2 ops2 Q' O' H2 E1|w' g' a' ws' os2 ops2 W' G' I' R' H2 E1
      |w' g' x' ws' os2 ops2 W' G' I' H2 E1|n' g' a' v' ws' os2 ops2 W' G' I' R' H2 E1|cs' os3 ws' os2 ops2 L' H2 E1
      |cs' x' os3 ws' os2 ops2 L' H2 E1]; cbn [append] in *; subst; auto; try no.
    all: try (match goal with G : In ?g T, I : In (?w, _) ?g, G' : In ?g' T, I' : In (?w, _) ?g' |- _ =>
                destruct (u_unique _ _ _ _ _ G I G' I') as (<- & E); try congruence end).
    all: try (match goal with H2 : reads _ _ _ _ _ |- _ => destruct (IH _ _ H2) as (<- & <-); auto end).
    - assert (N1 : has_char "=" n' = false) by exact (long_no_eq _ _ _ W' G' I').
      assert (N2 : has_char "=" n = false) by exact (long_no_eq _ _ _ W G I).
      destruct (split_eq n' v' n v N1 N2 E1) as (E2 & E3). subst n' v'.
      destruct (u_unique _ _ _ _ _ G I G' I') as (<- & _). auto.
    - destruct (letters_fun _ _ _ L _ _ L') as (_ & E). now rewrite E.
    - destruct (letters_fun _ _ _ L _ _ L') as (E & _). destruct E as (E & _). now specialize (E eq_refl).
    - destruct (letters_fun _ _ _ L _ _ L') as (E & _). destruct E as (_ & E). now specialize (E eq_refl).
    - destruct (letters_fun _ _ _ L _ _ L') as (_ & E). now rewrite E.
  Qed.
End Unique.
