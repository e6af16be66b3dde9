Require Import Verif.PyBase Verif.Shlex Verif.SpecShlex.
From Coq Require Import Lia.

(** ** Strings *)
Lemma sapp_assoc a b c : (a +++ b) +++ c = a +++ b +++ c.
Proof. induction a; simpl; congruence. Qed.
Lemma sapp_nil_r a : a +++ "" = a.
Proof. induction a; simpl; congruence. Qed.
Lemma append_char_app tok c s : append_char tok c +++ s = tok +++ String c s.
Proof. unfold append_char. rewrite sapp_assoc. reflexivity. Qed.
Lemma append_char_nonempty tok c : append_char tok c <> "".
Proof. destruct tok; discriminate. Qed.
Lemma all_chars_app P a b : all_chars P (a +++ b) <-> all_chars P a /\ all_chars P b.
Proof. induction a; simpl; tauto. Qed.

(** ** Character classes *)
Lemma is_space_spec c : is_space c = true <-> blank c.
Proof.
  unfold is_space, blank. simpl. rewrite !orb_true_iff, !Ascii.eqb_eq.
  intuition congruence.
Qed.
Lemma is_space_false c : is_space c = false <-> ~ blank c.
Proof. rewrite <- is_space_spec. destruct (is_space c); split; congruence. Qed.
Lemma is_quote_spec c : is_quote c = true <-> c = SQ \/ c = DQ.
Proof. unfold is_quote. rewrite orb_true_iff, !Ascii.eqb_eq. reflexivity. Qed.
Lemma is_quote_false c : is_quote c = false <-> c <> SQ /\ c <> DQ.
Proof. unfold is_quote. rewrite orb_false_iff, !Ascii.eqb_neq. reflexivity. Qed.

Lemma blank_SQ : ~ blank SQ. Proof. unfold blank; intuition discriminate. Qed.
Lemma blank_DQ : ~ blank DQ. Proof. unfold blank; intuition discriminate. Qed.
Lemma blank_BS : ~ blank BS. Proof. unfold blank; intuition discriminate. Qed.

(** ** The automaton follows the grammar *)
Lemma lex_blanks b s : all_chars blank b -> lex LSpace "" false (b +++ s) = lex LSpace "" false s.
Proof.
  induction b as [|c b IH]; simpl; auto. intros [H1 H2].
  apply is_space_spec in H1. rewrite H1. auto.
Qed.

Lemma lex_single body tok q s :
  all_chars (fun c => c <> SQ) body ->
  lex (LQuote SQ) tok q (body +++ String SQ s) = lex LWord (tok +++ body) true s.
Proof.
  revert tok q; induction body as [|c body IH]; intros tok q H; simpl.
  - rewrite sapp_nil_r. reflexivity.
  - destruct H as [H1 H2]. apply Ascii.eqb_neq in H1. rewrite H1.
    replace (Ascii.eqb SQ dquote) with false by reflexivity. rewrite andb_false_r.
    rewrite IH by auto. rewrite append_char_app. reflexivity.
Qed.

Lemma lex_double body bm : dq_body body bm -> forall tok q s,
  lex (LQuote DQ) tok q (body +++ String DQ s) = lex LWord (tok +++ bm) true s.
Proof.
  induction 1; intros tok q s; simpl.
  - rewrite sapp_nil_r. reflexivity.
  - apply Ascii.eqb_neq in H, H0. rewrite H. fold backslash in H0.
    change BS with backslash in H0. rewrite H0. simpl.
    rewrite IHdq_body, append_char_app. reflexivity.
  - replace (negb (Ascii.eqb c backslash) && negb (Ascii.eqb c DQ)) with false.
    + rewrite IHdq_body, append_char_app. reflexivity.
    + destruct H; subst; reflexivity.
  - replace (negb (Ascii.eqb c backslash) && negb (Ascii.eqb c DQ)) with true.
    + rewrite IHdq_body, !append_char_app. reflexivity.
    + apply Ascii.eqb_neq in H, H0. change BS with backslash in H0. rewrite H, H0. reflexivity.
Qed.

(** Reading the rest of a word, once it is known that a token has started. *)
Lemma lex_word_text t m : word_text t m -> forall tok q s,
  exists q', lex LWord tok q (t +++ s) = lex LWord (tok +++ m) q' s /\ (q = true -> q' = true).
Proof.
  induction 1; intros tok q s.
  - exists q. simpl. rewrite sapp_nil_r. auto.
  - destruct (IHword_text (append_char tok c) q s) as (q' & E & Hq).
    exists q'. split; auto. rewrite append_char_app in E. rewrite <- E. simpl.
    apply is_space_false in H. rewrite H.
    assert (Q : is_quote c = false) by (apply is_quote_false; auto). rewrite Q.
    apply Ascii.eqb_neq in H2. change BS with backslash in H2. rewrite H2. reflexivity.
  - destruct (IHword_text (append_char tok c) q s) as (q' & E & Hq).
    exists q'. split; auto. rewrite append_char_app in E. rewrite <- E. reflexivity.
  - destruct (IHword_text (tok +++ body) true s) as (q' & E & Hq).
    exists q'. split; auto. rewrite sapp_assoc in E. rewrite <- E.
    simpl. rewrite sapp_assoc. simpl. change squote with SQ. rewrite lex_single by auto. reflexivity.
  - destruct (IHword_text (tok +++ bm) true s) as (q' & E & Hq).
    exists q'. split; auto. rewrite sapp_assoc in E. rewrite <- E.
    simpl. rewrite sapp_assoc. simpl. rewrite (lex_double _ _ H). reflexivity.
Qed.

(** Reading a non-empty word from the start. *)
Lemma lex_start_word t m : word_text t m -> t <> "" -> forall s,
  exists q', lex LSpace "" false (t +++ s) = lex LWord m q' s /\ (m <> "" \/ q' = true).
Proof.
  intros H Hne s. destruct H; try congruence.
  - destruct (lex_word_text _ _ H3 (one_char c) false s) as (q' & E & Hq).
    exists q'. split; [|left; discriminate]. simpl in *.
    apply is_space_false in H. rewrite H.
    assert (Q : is_quote c = false) by (apply is_quote_false; auto). rewrite Q.
    apply Ascii.eqb_neq in H2. change BS with backslash in H2. rewrite H2. exact E.
  - destruct (lex_word_text _ _ H (one_char c) false s) as (q' & E & Hq).
    exists q'. split; [|left; discriminate]. simpl in *. exact E.
  - destruct (lex_word_text _ _ H0 body true s) as (q' & E & Hq).
    exists q'. split; [|auto]. rewrite <- E.
    simpl. rewrite sapp_assoc. simpl. rewrite lex_single by auto. reflexivity.
  - destruct (lex_word_text _ _ H0 bm true s) as (q' & E & Hq).
    exists q'. split; [|auto]. rewrite <- E.
    simpl. rewrite sapp_assoc. simpl. rewrite (lex_double _ _ H). reflexivity.
Qed.

Lemma emit_cond m (q : bool) : m <> "" \/ q = true -> negb (String.eqb m "") || q = true.
Proof.
  intros [H|H].
  - apply String.eqb_neq in H. rewrite H. reflexivity.
  - rewrite H. apply orb_true_r.
Qed.

Lemma tokenises_lex s ws : tokenises s ws -> shlex_split s = Ok ws.
Proof.
  unfold shlex_split. induction 1.
  - rewrite <- (sapp_nil_r b), lex_blanks by auto. reflexivity.
  - rewrite lex_blanks by auto.
    destruct (lex_start_word _ _ H1 H0 "") as (q' & E & Hq).
    rewrite sapp_nil_r in E. rewrite E. simpl. rewrite emit_cond; auto.
  - rewrite lex_blanks by auto.
    destruct (lex_start_word _ _ H1 H0 (String c rest)) as (q' & E & Hq).
    rewrite E. simpl. apply is_space_spec in H2. rewrite H2, emit_cond by auto.
    rewrite IHtokenises. reflexivity.
Qed.

(** ** The grammar covers every successful run *)

(** What a successful run from inside a word tells about the remaining input. *)
Definition word_rest (tok : string) (s : string) (ws : list string) : Prop :=
  exists t m, word_text t m /\
    ((s = t /\ ws = [tok +++ m]) \/
     (exists c r ws', s = t +++ String c r /\ blank c /\ tokenises r ws' /\ ws = (tok +++ m) :: ws')).

Lemma word_rest_push t0 m0 tok s ws :
  (forall t m, word_text t m -> word_text (t0 +++ t) (m0 +++ m)) ->
  word_rest (tok +++ m0) s ws -> word_rest tok (t0 +++ s) ws.
Proof.
  intros Hp (t & m & Hw & [(E1 & E2)|(c & r & ws' & E1 & Hc & Hr & E2)]).
  - exists (t0 +++ t), (m0 +++ m). split; auto. left. subst.
    rewrite sapp_assoc. auto.
  - exists (t0 +++ t), (m0 +++ m). split; auto. right. exists c, r, ws'. subst.
    rewrite !sapp_assoc. auto.
Qed.

Definition run_spec (st : lstate) (tok : string) (q : bool) (s : string) (ws : list string) : Prop :=
  match st with
  | LSpace => tok = "" -> q = false -> tokenises s ws
  | LWord => tok <> "" \/ q = true -> word_rest tok s ws
  | LQuote c =>
      (c = SQ -> exists body r, s = body +++ String SQ r /\
                   all_chars (fun c => c <> SQ) body /\ word_rest (tok +++ body) r ws) /\
      (c = DQ -> exists body bm r, s = body +++ String DQ r /\
                   dq_body body bm /\ word_rest (tok +++ bm) r ws)
  | LEscape None => exists c r, s = String c r /\ word_rest (append_char tok c) r ws
  | LEscape (Some c) =>
      c = DQ -> q = true -> exists d body bm r, s = String d (body +++ String DQ r) /\
        dq_body body bm /\
        word_rest (if negb (Ascii.eqb d BS) && negb (Ascii.eqb d DQ)
                   then tok +++ String BS (String d bm) else tok +++ String d bm) r ws
  end.

Lemma blank_cons_tokenises c s ws : blank c -> tokenises s ws -> tokenises (String c s) ws.
Proof.
  intros Hc H. destruct H.
  - apply tk_blanks. split; auto.
  - apply (tk_last (String c b)); simpl; auto.
  - apply (tk_more (String c b)); simpl; auto.
Qed.

Lemma word_rest_tokenises t0 m0 s ws :
  t0 <> "" ->
  (forall t m, word_text t m -> word_text (t0 +++ t) (m0 +++ m)) ->
  word_rest m0 s ws -> tokenises (t0 +++ s) ws.
Proof.
  intros Hne Hp (t & m & Hw & [(E1 & E2)|(c & r & ws' & E1 & Hc & Hr & E2)]); subst.
  - apply (tk_last ""); simpl; auto. destruct t0; try congruence; discriminate.
  - rewrite <- sapp_assoc. apply (tk_more ""); simpl; auto.
    destruct t0; try congruence; discriminate.
Qed.

Lemma lex_run_spec s : forall st tok q ws, lex st tok q s = Ok ws -> run_spec st tok q s ws.
Proof.
  induction s as [|c s IH]; intros st tok q ws E.
  - destruct st as [| |d|[d|]]; simpl in E; try discriminate; simpl.
    + injection E as <-. intros _ _. apply tk_blanks; simpl; auto.
    + intros H. rewrite emit_cond in E by auto. injection E as <-.
      exists "", "". split; [constructor|]. left. rewrite sapp_nil_r. auto.
  - destruct st as [| |d|[d|]]; simpl in E; simpl.
    + intros -> ->. destruct (is_space c) eqn:Sp.
      { apply is_space_spec in Sp. apply blank_cons_tokenises; auto.
        apply IH in E. simpl in E. auto. }
      destruct (Ascii.eqb c backslash) eqn:B.
      { apply Ascii.eqb_eq in B. subst c. apply IH in E. destruct E as (c & r & -> & E).
        change (String backslash (String c r)) with (String BS (String c "") +++ r).
        apply (word_rest_tokenises _ (one_char c)); auto; try discriminate.
        intros. simpl. constructor; auto. }
      destruct (is_quote c) eqn:Q.
      { apply IH in E. apply is_quote_spec in Q. simpl in E. destruct E as [E1 E2].
        destruct Q as [->| ->].
        - destruct (E1 eq_refl) as (body & r & -> & Hb & Hr).
          replace (String SQ (body +++ String SQ r)) with (String SQ (body +++ String SQ "") +++ r)
            by (simpl; rewrite sapp_assoc; reflexivity).
          apply (word_rest_tokenises _ body); auto; try discriminate.
          intros. simpl. rewrite sapp_assoc. simpl. constructor; auto.
        - destruct (E2 eq_refl) as (body & bm & r & -> & Hb & Hr).
          replace (String DQ (body +++ String DQ r)) with (String DQ (body +++ String DQ "") +++ r)
            by (simpl; rewrite sapp_assoc; reflexivity).
          apply (word_rest_tokenises _ bm); auto; try discriminate.
          intros. simpl. rewrite sapp_assoc. simpl. constructor; auto. }
      apply IH in E. simpl in E.
      change (String c s) with (String c "" +++ s).
      apply (word_rest_tokenises _ (one_char c)); auto; try discriminate.
      * intros. simpl. apply is_space_false in Sp. apply is_quote_false in Q. destruct Q.
        apply Ascii.eqb_neq in B. constructor; auto.
      * apply E. left. discriminate.
    + intros Hne. destruct (is_space c) eqn:Sp.
      { rewrite emit_cond in E by auto. destruct (lex LSpace "" false s) eqn:L; simpl in E; try discriminate.
        injection E as <-. apply IH in L. simpl in L.
        exists "", "". split; [constructor|]. right. exists c, s, a. rewrite sapp_nil_r.
        apply is_space_spec in Sp. auto. }
      destruct (is_quote c) eqn:Q.
      { apply IH in E. apply is_quote_spec in Q. simpl in E. destruct E as [E1 E2].
        destruct Q as [->| ->].
        - destruct (E1 eq_refl) as (body & r & -> & Hb & Hr).
          replace (String SQ (body +++ String SQ r)) with (String SQ (body +++ String SQ "") +++ r)
            by (simpl; rewrite sapp_assoc; reflexivity).
          apply (word_rest_push _ body); auto.
          intros. simpl. rewrite sapp_assoc. simpl. constructor; auto.
        - destruct (E2 eq_refl) as (body & bm & r & -> & Hb & Hr).
          replace (String DQ (body +++ String DQ r)) with (String DQ (body +++ String DQ "") +++ r)
            by (simpl; rewrite sapp_assoc; reflexivity).
          apply (word_rest_push _ bm); auto.
          intros. simpl. rewrite sapp_assoc. simpl. constructor; auto. }
      destruct (Ascii.eqb c backslash) eqn:B.
      { apply Ascii.eqb_eq in B. subst c. apply IH in E. destruct E as (c & r & -> & E).
        change (String backslash (String c r)) with (String BS (String c "") +++ r).
        apply (word_rest_push _ (one_char c)); auto.
        intros. simpl. constructor; auto. }
      apply IH in E. simpl in E.
      change (String c s) with (String c "" +++ s).
      apply (word_rest_push _ (one_char c)).
      * intros. simpl. apply is_space_false in Sp. apply is_quote_false in Q. destruct Q.
        apply Ascii.eqb_neq in B. constructor; auto.
      * apply E. left. apply append_char_nonempty.
    + split; intros ->.
      * destruct (Ascii.eqb c SQ) eqn:Q.
        { apply Ascii.eqb_eq in Q. subst c. apply IH in E. simpl in E.
          exists "", s. simpl. rewrite sapp_nil_r. auto. }
        replace (Ascii.eqb SQ dquote) with false in E by reflexivity. rewrite andb_false_r in E.
        apply IH in E. simpl in E. destruct E as [E _].
        destruct (E eq_refl) as (body & r & -> & Hb & Hr).
        exists (String c body), r. simpl. apply Ascii.eqb_neq in Q. rewrite append_char_app in Hr. auto.
      * destruct (Ascii.eqb c DQ) eqn:Q.
        { apply Ascii.eqb_eq in Q. subst c. apply IH in E. simpl in E.
          exists "", "", s. simpl. rewrite sapp_nil_r. split; [auto|]. split; [constructor|]. auto. }
        apply Ascii.eqb_neq in Q.
        replace (Ascii.eqb DQ dquote) with true in E by reflexivity. rewrite andb_true_r in E.
        destruct (Ascii.eqb c backslash) eqn:B.
        { apply Ascii.eqb_eq in B. subst c. apply IH in E. simpl in E.
          destruct (E eq_refl eq_refl) as (d & body & bm & r & -> & Hb & Hr).
          destruct (negb (Ascii.eqb d BS) && negb (Ascii.eqb d DQ)) eqn:N; rewrite ?N in Hr.
          - apply andb_prop in N. rewrite !negb_true_iff, !Ascii.eqb_neq in N. destruct N.
            exists (String BS (String d body)), (String BS (String d bm)), r.
            split; [reflexivity|]. split; [apply dq_literal_backslash; auto|]. auto.
          - assert (d = DQ \/ d = BS).
            { apply andb_false_iff in N. rewrite !negb_false_iff, !Ascii.eqb_eq in N. tauto. }
            exists (String BS (String d body)), (String d bm), r.
            split; [reflexivity|]. split; [apply dq_protected; auto|]. auto. }
        apply IH in E. simpl in E. destruct E as [_ E].
        destruct (E eq_refl) as (body & bm & r & -> & Hb & Hr).
        apply Ascii.eqb_neq in B.
        exists (String c body), (String c bm), r. rewrite append_char_app in Hr.
        split; [reflexivity|]. split; [constructor; auto|]. auto.
    + intros -> ->. apply IH in E. simpl in E. destruct E as [_ E].
      destruct (E eq_refl) as (body & bm & r & -> & Hb & Hr).
      exists c, body, bm, r. split; [reflexivity|]. split; [auto|].
      change BS with backslash.
      destruct (negb (Ascii.eqb c backslash) && negb (Ascii.eqb c DQ)).
      * rewrite !append_char_app in Hr. auto.
      * rewrite !append_char_app in Hr. auto.
    + apply IH in E. simpl in E. exists c, s. split; auto.
      apply E. left. apply append_char_nonempty.
Qed.

Theorem split_iff_tokenises s ws : shlex_split s = Ok ws <-> tokenises s ws.
Proof.
  split; [|apply tokenises_lex].
  intros E. apply lex_run_spec in E. simpl in E. auto.
Qed.

(** ** Failing runs *)
Lemma lex_only_ValueError s : forall st tok q e, lex st tok q s = Raise e -> e = ValueError.
Proof.
  induction s as [|c s IH]; intros st tok q e E.
  - destruct st as [| |d|[d|]]; simpl in E; try (destruct (_ || _) in E); congruence.
  - destruct st as [| |d|[d|]]; simpl in E;
      repeat match type of E with
             | (if ?b then _ else _) = _ => destruct b
             | bind ?x _ = _ => destruct x eqn:?; simpl in E; try discriminate;
                                injection E as <-
             end; eauto.
Qed.

Definition word_unf (s : string) : Prop :=
  (exists t m tail, word_text t m /\ unfinished_tail tail /\ s = t +++ tail) \/
  (exists t m c r, word_text t m /\ blank c /\ unfinished r /\ s = t +++ String c r).

Lemma word_unf_push t0 m0 s :
  (forall t m, word_text t m -> word_text (t0 +++ t) (m0 +++ m)) ->
  word_unf s -> word_unf (t0 +++ s).
Proof.
  intros Hp [(t & m & tail & H1 & H2 & ->)|(t & m & c & r & H1 & H2 & H3 & ->)].
  - left. exists (t0 +++ t), (m0 +++ m), tail. rewrite sapp_assoc. auto.
  - right. exists (t0 +++ t), (m0 +++ m), c, r. rewrite sapp_assoc. auto.
Qed.

Lemma word_unf_unfinished t0 m0 s :
  t0 <> "" ->
  (forall t m, word_text t m -> word_text (t0 +++ t) (m0 +++ m)) ->
  word_unf s -> unfinished (t0 +++ s).
Proof.
  intros Hne Hp [(t & m & tail & H1 & H2 & ->)|(t & m & c & r & H1 & H2 & H3 & ->)].
  - rewrite <- sapp_assoc. apply (unf_here "" _ (m0 +++ m)); simpl; auto.
  - rewrite <- sapp_assoc. apply (unf_later "" _ (m0 +++ m)); simpl; auto.
    destruct t0; try congruence; discriminate.
Qed.

Lemma blank_cons_unfinished c s : blank c -> unfinished s -> unfinished (String c s).
Proof.
  intros Hc H. destruct H.
  - apply (unf_here (String c b) t m); simpl; auto.
  - apply (unf_later (String c b) t m); simpl; auto.
Qed.

Definition fail_spec (st : lstate) (tok : string) (q : bool) (s : string) : Prop :=
  match st with
  | LSpace => tok = "" -> q = false -> unfinished s
  | LWord => tok <> "" \/ q = true -> word_unf s
  | LQuote c =>
      (c = SQ -> all_chars (fun c => c <> SQ) s \/
                 exists body r, s = body +++ String SQ r /\
                   all_chars (fun c => c <> SQ) body /\ word_unf r) /\
      (c = DQ -> dq_open s \/
                 exists body bm r, s = body +++ String DQ r /\ dq_body body bm /\ word_unf r)
  | LEscape None => s = "" \/ exists c r, s = String c r /\ word_unf r
  | LEscape (Some c) =>
      c = DQ -> s = "" \/ exists d s', s = String d s' /\
        (dq_open s' \/
         exists body bm r, s' = body +++ String DQ r /\ dq_body body bm /\ word_unf r)
  end.

Lemma dq_open_push t0 m0 s :
  (forall t m, dq_body t m -> dq_body (t0 +++ t) (m0 +++ m)) -> dq_open s -> dq_open (t0 +++ s).
Proof.
  intros Hp H. destruct H.
  - apply (dqo_body _ (m0 +++ m)). auto.
  - rewrite <- sapp_assoc. apply (dqo_escape _ (m0 +++ m)). auto.
Qed.

Lemma dq_escaped_ok d : exists m0, forall t m,
  dq_body t m -> dq_body (String BS (String d "") +++ t) (m0 +++ m).
Proof.
  destruct (ascii_dec d DQ); [|destruct (ascii_dec d BS)].
  - exists (one_char d). intros. simpl. apply dq_protected; auto.
  - exists (one_char d). intros. simpl. apply dq_protected; auto.
  - exists (String BS (one_char d)). intros. simpl. apply dq_literal_backslash; auto.
Qed.

Lemma lex_fail_spec s : forall st tok q e, lex st tok q s = Raise e -> fail_spec st tok q s.
Proof.
  induction s as [|c s IH]; intros st tok q e E.
  - destruct st as [| |d|[d|]]; simpl in E; try discriminate; simpl; auto.
    + intros H. rewrite emit_cond in E by auto. discriminate.
    + split; intros ->; left; auto. apply (dqo_body "" ""). constructor.
  - destruct st as [| |d|[d|]]; simpl in E; simpl.
    + intros -> ->. destruct (is_space c) eqn:Sp.
      { apply is_space_spec in Sp. apply blank_cons_unfinished; auto.
        apply IH in E. simpl in E. auto. }
      destruct (Ascii.eqb c backslash) eqn:B.
      { apply Ascii.eqb_eq in B. subst c. apply IH in E.
        destruct E as [->|(c & r & -> & E)].
        - apply (unf_here "" "" ""); simpl; auto; constructor.
        - change (String backslash (String c r)) with (String BS (String c "") +++ r).
          apply (word_unf_unfinished _ (one_char c)); auto; try discriminate.
          intros. simpl. constructor; auto. }
      destruct (is_quote c) eqn:Q.
      { apply IH in E. apply is_quote_spec in Q. simpl in E. destruct E as [E1 E2].
        destruct Q as [->| ->].
        - destruct (E1 eq_refl) as [Ho|(body & r & -> & Hb & Hr)].
          { apply (unf_here "" "" ""); simpl; auto; constructor; auto. }
          replace (String SQ (body +++ String SQ r)) with (String SQ (body +++ String SQ "") +++ r)
            by (simpl; rewrite sapp_assoc; reflexivity).
          apply (word_unf_unfinished _ body); auto; try discriminate.
          intros. simpl. rewrite sapp_assoc. simpl. constructor; auto.
        - destruct (E2 eq_refl) as [Ho|(body & bm & r & -> & Hb & Hr)].
          { apply (unf_here "" "" ""); simpl; auto; constructor; auto. }
          replace (String DQ (body +++ String DQ r)) with (String DQ (body +++ String DQ "") +++ r)
            by (simpl; rewrite sapp_assoc; reflexivity).
          apply (word_unf_unfinished _ bm); auto; try discriminate.
          intros. simpl. rewrite sapp_assoc. simpl. constructor; auto. }
      apply IH in E. simpl in E.
      change (String c s) with (String c "" +++ s).
      apply (word_unf_unfinished _ (one_char c)); auto; try discriminate.
      * intros. simpl. apply is_space_false in Sp. apply is_quote_false in Q. destruct Q.
        apply Ascii.eqb_neq in B. constructor; auto.
      * apply E. left. discriminate.
    + intros Hne. destruct (is_space c) eqn:Sp.
      { rewrite emit_cond in E by auto. destruct (lex LSpace "" false s) eqn:L; simpl in E; try discriminate.
        apply IH in L. simpl in L. right. exists "", "", c, s. split; [constructor|].
        apply is_space_spec in Sp. auto. }
      destruct (is_quote c) eqn:Q.
      { apply IH in E. apply is_quote_spec in Q. simpl in E. destruct E as [E1 E2].
        destruct Q as [->| ->].
        - destruct (E1 eq_refl) as [Ho|(body & r & -> & Hb & Hr)].
          { left. exists "", "", (String SQ s). repeat constructor; auto. }
          replace (String SQ (body +++ String SQ r)) with (String SQ (body +++ String SQ "") +++ r)
            by (simpl; rewrite sapp_assoc; reflexivity).
          apply (word_unf_push _ body); auto.
          intros. simpl. rewrite sapp_assoc. simpl. constructor; auto.
        - destruct (E2 eq_refl) as [Ho|(body & bm & r & -> & Hb & Hr)].
          { left. exists "", "", (String DQ s). repeat constructor; auto. }
          replace (String DQ (body +++ String DQ r)) with (String DQ (body +++ String DQ "") +++ r)
            by (simpl; rewrite sapp_assoc; reflexivity).
          apply (word_unf_push _ bm); auto.
          intros. simpl. rewrite sapp_assoc. simpl. constructor; auto. }
      destruct (Ascii.eqb c backslash) eqn:B.
      { apply Ascii.eqb_eq in B. subst c. apply IH in E.
        destruct E as [->|(c & r & -> & E)].
        - left. exists "", "", (String BS ""). repeat constructor.
        - change (String backslash (String c r)) with (String BS (String c "") +++ r).
          apply (word_unf_push _ (one_char c)); auto.
          intros. simpl. constructor; auto. }
      apply IH in E. simpl in E.
      change (String c s) with (String c "" +++ s).
      apply (word_unf_push _ (one_char c)).
      * intros. simpl. apply is_space_false in Sp. apply is_quote_false in Q. destruct Q.
        apply Ascii.eqb_neq in B. constructor; auto.
      * apply E. left. apply append_char_nonempty.
    + split; intros ->.
      * destruct (Ascii.eqb c SQ) eqn:Q.
        { apply Ascii.eqb_eq in Q. subst c. apply IH in E. simpl in E.
          right. exists "", s. simpl. auto. }
        replace (Ascii.eqb SQ dquote) with false in E by reflexivity. rewrite andb_false_r in E.
        apply IH in E. simpl in E. destruct E as [E _]. apply Ascii.eqb_neq in Q.
        destruct (E eq_refl) as [Ho|(body & r & -> & Hb & Hr)]; [left; simpl; auto|].
        right. exists (String c body), r. simpl. auto.
      * destruct (Ascii.eqb c DQ) eqn:Q.
        { apply Ascii.eqb_eq in Q. subst c. apply IH in E. simpl in E.
          right. exists "", "", s. simpl. split; [auto|]. split; [constructor|]. auto. }
        apply Ascii.eqb_neq in Q.
        replace (Ascii.eqb DQ dquote) with true in E by reflexivity. rewrite andb_true_r in E.
        destruct (Ascii.eqb c backslash) eqn:B.
        { apply Ascii.eqb_eq in B. subst c. apply IH in E. simpl in E.
          destruct (E eq_refl) as [->|(d & s' & -> & Hs)].
          - left. apply (dqo_escape "" ""). constructor.
          - destruct (dq_escaped_ok d) as (m0 & Hm).
            destruct Hs as [Ho|(body & bm & r & -> & Hb & Hr)].
            + left. apply (dq_open_push (String BS (String d "")) m0); auto.
            + right. exists (String BS (String d "") +++ body), (m0 +++ bm), r. auto. }
        apply IH in E. simpl in E. destruct E as [_ E]. apply Ascii.eqb_neq in B.
        destruct (E eq_refl) as [Ho|(body & bm & r & -> & Hb & Hr)].
        { left. apply (dq_open_push (String c "") (one_char c)); auto.
          intros. simpl. constructor; auto. }
        right. exists (String c body), (String c bm), r.
        split; [reflexivity|]. split; [constructor; auto|]. auto.
    + intros ->. right. exists c, s. split; auto.
      apply IH in E. simpl in E. destruct E as [_ E]. auto.
    + right. exists c, s. split; auto. apply IH in E. simpl in E.
      apply E. left. apply append_char_nonempty.
Qed.

Lemma lex_single_open body : all_chars (fun c => c <> SQ) body -> forall tok q,
  lex (LQuote SQ) tok q body = Raise ValueError.
Proof.
  induction body as [|c body IH]; intros H tok q; simpl; auto.
  destruct H as [H1 H2]. apply Ascii.eqb_neq in H1. rewrite H1.
  replace (Ascii.eqb SQ dquote) with false by reflexivity. rewrite andb_false_r. auto.
Qed.

Lemma lex_double_prefix body bm : dq_body body bm -> forall tok q s,
  exists q', lex (LQuote DQ) tok q (body +++ s) = lex (LQuote DQ) (tok +++ bm) q' s.
Proof.
  induction 1; intros tok q s; simpl.
  - exists q. rewrite sapp_nil_r. reflexivity.
  - apply Ascii.eqb_neq in H, H0. rewrite H. change BS with backslash in H0. rewrite H0. simpl.
    destruct (IHdq_body (append_char tok c) true s) as (q' & E). exists q'.
    rewrite E, append_char_app. reflexivity.
  - replace (negb (Ascii.eqb c backslash) && negb (Ascii.eqb c DQ)) with false
      by (destruct H; subst; reflexivity).
    destruct (IHdq_body (append_char tok c) true s) as (q' & E). exists q'.
    rewrite E, append_char_app. reflexivity.
  - replace (negb (Ascii.eqb c backslash) && negb (Ascii.eqb c DQ)) with true
      by (apply Ascii.eqb_neq in H, H0; change BS with backslash in H0; rewrite H, H0; reflexivity).
    destruct (IHdq_body (append_char (append_char tok backslash) c) true s) as (q' & E). exists q'.
    rewrite E, !append_char_app. reflexivity.
Qed.

Lemma lex_double_open body : dq_open body -> forall tok q,
  lex (LQuote DQ) tok q body = Raise ValueError.
Proof.
  intros H tok q. destruct H.
  - destruct (lex_double_prefix _ _ H tok q "") as (q' & E). rewrite sapp_nil_r in E.
    rewrite E. reflexivity.
  - destruct (lex_double_prefix _ _ H tok q (String BS "")) as (q' & E). rewrite E. reflexivity.
Qed.

Lemma lex_tail st tok q tail : st = LSpace \/ st = LWord -> unfinished_tail tail ->
  lex st tok q tail = Raise ValueError.
Proof.
  intros [-> | ->] H; destruct H; simpl; auto using lex_single_open, lex_double_open.
Qed.

Theorem split_raises_iff_unfinished s e :
  shlex_split s = Raise e <-> e = ValueError /\ unfinished s.
Proof.
  split.
  - intros E. split; [eapply lex_only_ValueError; eauto|].
    apply lex_fail_spec in E. simpl in E. auto.
  - intros [-> H]. unfold shlex_split. induction H.
    + rewrite lex_blanks by auto. destruct t as [|c t].
      * inversion H0; subst. simpl. apply lex_tail; auto.
      * destruct (lex_start_word _ _ H0 ltac:(discriminate) tail) as (q' & E & _).
        rewrite E. apply lex_tail; auto.
    + rewrite lex_blanks by auto.
      destruct (lex_start_word _ _ H1 H0 (String c rest)) as (q' & E & Hq).
      rewrite E. simpl. apply is_space_spec in H2. rewrite H2, emit_cond by auto.
      rewrite IHunfinished. reflexivity.
Qed.

(** ** Quoting *)
Lemma escape_squotes_word w t m : word_text t m ->
  word_text (String SQ (escape_squotes w +++ String SQ t)) (w +++ m).
Proof.
  intros Ht.
  enough (G : forall pre, all_chars (fun c => c <> SQ) pre ->
            word_text (String SQ (pre +++ escape_squotes w +++ String SQ t)) (pre +++ w +++ m))
    by (apply (G ""); simpl; auto).
  induction w as [|c w IH]; intros pre Hp; simpl.
  - apply wt_single; auto.
  - destruct (Ascii.eqb c squote) eqn:Q.
    + apply Ascii.eqb_eq in Q. subst c. cbn [String.append].
      apply (wt_single pre); auto.
      change (String squote (w +++ m)) with ("'" +++ w +++ m).
      apply (wt_double "'" "'" (String SQ (escape_squotes w +++ String SQ t))).
      * apply dq_plain; try discriminate. constructor.
      * apply (IH ""). simpl; auto.
    + apply Ascii.eqb_neq in Q.
      replace (pre +++ String c (escape_squotes w) +++ String SQ t)
        with ((pre +++ String c "") +++ escape_squotes w +++ String SQ t)
        by (rewrite sapp_assoc; reflexivity).
      replace (pre +++ String c (w +++ m)) with ((pre +++ String c "") +++ w +++ m)
        by (rewrite sapp_assoc; reflexivity).
      apply IH. apply all_chars_app. simpl. auto.
Qed.

Lemma is_safe_plain c : is_safe c = true -> ~ blank c /\ c <> SQ /\ c <> DQ /\ c <> BS.
Proof.
  intros H. unfold blank. repeat split; intros Hc.
  - destruct Hc as [->|[->|[->| ->]]]; discriminate H.
  - subst; discriminate H.
  - subst; discriminate H.
  - subst; discriminate H.
Qed.

Lemma all_safe_word w : all_safe w = true -> word_text w w.
Proof.
  induction w as [|c w IH]; simpl; [constructor|].
  intros H. apply andb_prop in H. destruct H as [H1 H2].
  apply is_safe_plain in H1. destruct H1 as (A & B & C & D). constructor; auto.
Qed.

Lemma quote_word w : word_text (shlex_quote w) w /\ shlex_quote w <> "".
Proof.
  unfold shlex_quote. destruct (String.eqb w "") eqn:E.
  - apply String.eqb_eq in E. subst. split; [|discriminate].
    apply (wt_single "" "" ""); simpl; auto. constructor.
  - apply String.eqb_neq in E. destruct (all_safe w) eqn:A.
    + split; auto. apply all_safe_word; auto.
    + split; [|discriminate].
      rewrite <- (sapp_nil_r w) at 2. apply (escape_squotes_word w "" ""). constructor.
Qed.

Theorem join_tokenises ws : tokenises (shlex_join ws) ws.
Proof.
  unfold shlex_join. induction ws as [|w ws IH]; simpl.
  - apply tk_blanks. simpl; auto.
  - destruct (quote_word w) as [Hw Hne]. destruct ws as [|w' ws].
    + simpl. apply (tk_last ""); simpl; auto.
    + apply (tk_more "" _ w " "%char); simpl; auto. unfold blank; auto.
Qed.

Theorem split_join ws : shlex_split (shlex_join ws) = Ok ws.
Proof. apply split_iff_tokenises, join_tokenises. Qed.
