(** * C64: what a POSIX shell reads in the text of an argument *)
From Coq Require Import ZArith Lia.
Require Import Verif.PyBase Verif.SpecShlex Verif.ShlexFacts Verif.ArgChars Verif.SpecArgChars Verif.SpecShellWord Verif.P_ArgChars.

(** The text of a word *)
Inductive texted : list arg_char -> string -> Prop :=
| tx_nil : texted [] ""
| tx_char c l t : texted l t -> texted (AC (code c) :: l) (String c t)
| tx_escape c l t : texted l t -> texted (AE (code c) :: l) (String c t)
| tx_param f b x a l t : texted l t -> texted (AV [f; b; lit x; a] :: l) ("${" +++ x +++ "}" +++ t)
| tx_quoted i u l t : texted i u -> texted l t -> texted (AQ i :: l) (String DQ (u +++ String DQ t)).
Lemma means_texted q l ps : means q l ps -> exists t, texted l t.
Proof.
  induction 1 as [q|q c l ps M (t & T)|q c l ps M (t & T)|q b x a l ps N M (t & T)|q f b x a l ps F N M (t & T)|i l ps ps' M (u & U) M' (t & T)];
    eexists; econstructor; eassumption.
Qed.
Lemma format_texted l t : texted l t -> format_arg_chars l = Ok (lit t).
Proof.
  induction 1 as [|c l t T IH|c l t T IH|f b x a l t T IH|i u l t U IU T IT]; [reflexivity| | | |]; rewrite format_cons.
  - cbn [format_arg_char]. rewrite code_ok. cbn [bind]. now rewrite IH.
  - cbn [format_arg_char]. rewrite code_ok. cbn [bind]. now rewrite IH.
  - cbn [format_arg_char nth_error bind]. rewrite IH. cbn [bind]. rewrite !lit_app. f_equal. rewrite <- !app_assoc. reflexivity.
  - rewrite format_quoted, IU. cbn [bind]. rewrite IT. cbn [bind]. f_equal.
    change (lit (String DQ (u +++ String DQ t))) with (code DQ :: lit (u +++ String DQ t)).
    rewrite lit_app. change (lit (String DQ t)) with (code DQ :: lit t). change (lit """") with [code DQ]. cbn [app]. now rewrite <- app_assoc.
Qed.
Lemma lit_inj a : forall b, lit a = lit b -> a = b.
Proof.
  induction a as [|c a IH]; intros [|d b] E; try discriminate; [reflexivity|]. injection E as E1 E2. apply code_inj in E1 as ->. f_equal. now apply IH.
Qed.

(** ** The reader *)
Lemma emit_some p r l : emit p r = Some l -> exists l', l = p :: l' /\ r = Some l'.
Proof. destruct r as [l'|]; [|discriminate]. intros [= <-]. eauto. Qed.
Lemma one_of4 c : one_of [DQ; BS; DOLLAR; "`"%char] c = false <->
  Ascii.eqb c DQ = false /\ Ascii.eqb c BS = false /\ Ascii.eqb c DOLLAR = false /\ Ascii.eqb c "`" = false.
Proof. cbn. rewrite !orb_false_iff. tauto. Qed.
Lemma read_quoted_char c s : one_of [DQ; BS; DOLLAR; "`"%char] c = false ->
  read (RText true) (String c s) = emit (Lit true c) (read (RText true) s).
Proof. intros H. apply one_of4 in H as (A & B & C & D). cbn. now rewrite A, B, C, D. Qed.
Lemma read_plain_char c s : one_of [DQ; BS; DOLLAR; "`"%char] c = false -> c <> SQ -> ends_word c = false ->
  read (RText false) (String c s) = emit (Lit false c) (read (RText false) s).
Proof.
  intros H N E. apply one_of4 in H as (A & B & C & D). cbn [read]. rewrite A, B, C, D, E. destruct (Ascii.eqb_spec c SQ); [contradiction|reflexivity].
Qed.
Lemma read_dollar q s : read (RText q) (String DOLLAR s) = read (RDollar q) s.
Proof. reflexivity. Qed.
Lemma no_start c q s : starts c = false -> read (RDollar q) (String c s) = emit (Lit q DOLLAR) (read (RText q) (String c s)).
Proof.
  unfold starts. rewrite !orb_false_iff. intros (((A & B) & C) & D).
  assert (E1 : Ascii.eqb c "{" = false) by (destruct (Ascii.eqb_spec c "{"); [subst; discriminate|reflexivity]).
  assert (E2 : Ascii.eqb c "(" = false) by (destruct (Ascii.eqb_spec c "("); [subst; discriminate|reflexivity]).
  cbn [read]. rewrite E1, E2, A, B, C. reflexivity.
Qed.
Lemma name_head s : forall q n l, read (RName q n) s = Some l -> exists n' r, l = Param q n' :: r.
Proof.
  induction s as [|c s IH]; intros q n l.
  - cbn. destruct q; [discriminate|]. intros [= <-]. eauto.
  - cbn [read]. destruct (name_char c); [apply IH|]. intros E. apply emit_some in E as (l' & -> & _). eauto.
Qed.
Lemma brace_head s : forall q n l, read (RBrace q n) s = Some l -> exists n' r, l = Param q n' :: r.
Proof.
  induction s as [|c s IH]; intros q n l; [discriminate|]. cbn [read]. destruct (Ascii.eqb c "}"); [|apply IH].
  destruct (param_name n); [|discriminate]. intros E. apply emit_some in E as (l' & -> & _). eauto.
Qed.
Lemma with_start c q s l : starts c = true -> read (RDollar q) (String c s) = Some l -> exists n r, l = Param q n :: r.
Proof.
  intros S. cbn [read]. destruct (Ascii.eqb_spec c "{") as [->|N1]; [apply brace_head|]. destruct (Ascii.eqb_spec c "(") as [->|N2]; [discriminate|].
  destruct (name_first c) eqn:F; [apply name_head|]. destruct (digit c || special c) eqn:D.
  - intros E. apply emit_some in E as (l' & -> & _). eauto.
  - exfalso. unfold starts in S. rewrite F in S. cbn [orb] in S. rewrite D in S. cbn in S. destruct (Ascii.eqb_spec c "{"); [contradiction|]. destruct (Ascii.eqb_spec c "("); [contradiction|]. discriminate.
Qed.
Lemma dollar_head q s p r : read (RDollar q) s = Some (p :: r) -> p = Lit q DOLLAR \/ exists n, p = Param q n.
Proof.
  destruct s as [|c s].
  - cbn. destruct q; [discriminate|]. intros [= <- _]. auto.
  - destruct (starts c) eqn:S.
    + intros E. apply (with_start _ _ _ _ S) in E as (n & r' & [= -> _]). eauto.
    + rewrite no_start by exact S. intros E. apply emit_some in E as (l' & [= -> _] & _). auto.
Qed.
(** Outside of quotes, quoted characters come after a backslash only. *)
Lemma head_false s c r : read (RText false) s = Some (Lit true c :: r) -> exists s', s = String BS s'.
Proof.
  destruct s as [|d s]; [discriminate|]. cbn [read]. destruct (Ascii.eqb_spec d DQ).
  { intros E. apply emit_some in E as (? & [=] & _). }
  destruct (Ascii.eqb_spec d BS) as [->|]; [eauto|]. destruct (Ascii.eqb_spec d DOLLAR).
  { intros E. apply dollar_head in E as [[=]|(n' & [=])]. }
  destruct (Ascii.eqb d "`"); [discriminate|]. destruct (Ascii.eqb d SQ).
  { intros E. apply emit_some in E as (? & [=] & _). }
  destruct (ends_word d); [discriminate|]. intros E. apply emit_some in E as (? & [=] & _).
Qed.
(** A parameter in braces *)
Lemma all_of_app p a b : all_of p (a +++ b) = all_of p a && all_of p b.
Proof. induction a as [|c a IH]; [reflexivity|]. cbn. rewrite IH. apply andb_assoc. Qed.
Definition not_brace (c : ascii) : bool := negb (Ascii.eqb c "}").
Lemma char_not_brace (p : ascii -> bool) c : p "}"%char = false -> p c = true -> not_brace c = true.
Proof. intros N P. unfold not_brace. destruct (Ascii.eqb_spec c "}") as [->|]; [congruence|reflexivity]. Qed.
Lemma all_not_brace (p : ascii -> bool) s : p "}"%char = false -> all_of p s = true -> all_of not_brace s = true.
Proof.
  intros N. induction s as [|c s IH]; [reflexivity|]. cbn. rewrite !andb_true_iff. intros (A & B). split; [now apply (char_not_brace p)|auto].
Qed.
Lemma name_not_brace s : param_name s = true -> all_of not_brace s = true.
Proof.
  destruct s as [|c s]; [discriminate|]. unfold param_name. rewrite !orb_true_iff, !andb_true_iff. intros [[(A & B)|A]|(A & B)].
  - cbn. apply andb_true_iff. split; [now apply (char_not_brace name_first)|now apply (all_not_brace name_char)].
  - now apply (all_not_brace digit).
  - apply String.eqb_eq in B as ->. cbn. rewrite andb_true_r. now apply (char_not_brace special).
Qed.
Lemma read_brace x : forall q n s, all_of not_brace x = true -> read (RBrace q n) (x +++ String "}" s) =
  if param_name (n +++ x) then emit (Param q (n +++ x)) (read (RText q) s) else None.
Proof.
  induction x as [|c x IH]; intros q n s A.
  - cbn. rewrite sapp_nil_r. reflexivity.
  - cbn in A. apply andb_true_iff in A as (A & B). cbn [String.append read]. unfold not_brace in A. destruct (Ascii.eqb c "}"); [discriminate|].
    rewrite IH by exact B. rewrite sapp_assoc. reflexivity.
Qed.
Lemma read_param x q s : param_name x = true -> read (RText q) ("${" +++ x +++ "}" +++ s) = emit (Param q x) (read (RText q) s).
Proof.
  intros N. change (read (RText q) ("${" +++ x +++ "}" +++ s)) with (read (RBrace q "") (x +++ String "}" s)).
  rewrite read_brace by now apply name_not_brace. cbn [String.append]. now rewrite N.
Qed.

(** ** The first character *)
Lemma starts_first l t : texted l t -> next_starts l -> exists c u, t = String c u /\ starts c = true.
Proof.
  intros T N. destruct T as [|c l t T|c l t T|f b x a l t T|i u l t U T]; inversion N as [d k S E|d k S E|v k E]; subst;
    try (match goal with H : code _ = code _ |- _ => apply code_inj in H as -> end); eauto.
  exists DOLLAR. eexists. split; reflexivity.
Qed.
Lemma not_starts_first l t : texted l t -> ~ next_starts l -> t = "" \/ exists c u, t = String c u /\ starts c = false.
Proof.
  intros T N. destruct T as [|c l t T|c l t T|f b x a l t T|i u l t U T]; [auto| | | |].
  - right. exists c, t. split; [reflexivity|]. destruct (starts c) eqn:S; [|reflexivity]. destruct N. now constructor.
  - right. exists c, t. split; [reflexivity|]. destruct (starts c) eqn:S; [|reflexivity]. destruct N. now constructor.
  - destruct N. constructor.
  - right. exists DQ. eexists. split; reflexivity.
Qed.
Lemma starts_dec l t : texted l t -> next_starts l \/ ~ next_starts l.
Proof.
  intros T. destruct T as [|c l t T|c l t T|f b x a l t T|i u l t U T].
  - right. inversion 1.
  - destruct (starts c) eqn:S; [left; now constructor|]. right. inversion 1 as [d k S' E|d k S' E|v k E]; subst. apply code_inj in E as ->. congruence.
  - destruct (starts c) eqn:S; [left; now constructor|]. right. inversion 1 as [d k S' E|d k S' E|v k E]; subst. apply code_inj in E as ->. congruence.
  - left. constructor.
  - right. inversion 1.
Qed.
(** ** What survives is read *)
Definition then_read (ps : list part) (r : option (list part)) : option (list part) :=
  match r with Some l => Some (ps ++ l) | None => None end.
Lemma emit_then p ps r : emit p (then_read ps r) = then_read (p :: ps) r.
Proof. now destruct r. Qed.
Lemma quoted_dollar l t s ps : texted l t -> ~ next_starts l ->
  read (RText true) (t +++ String DQ s) = then_read ps (read (RText false) s) ->
  read (RText true) (String DOLLAR t +++ String DQ s) = then_read (Lit true DOLLAR :: ps) (read (RText false) s).
Proof.
  intros T N IH. cbn [String.append]. rewrite read_dollar. destruct (not_starts_first l t T N) as [->|(c & u & -> & S)].
  - cbn [String.append] in *. rewrite no_start by reflexivity. rewrite IH. apply emit_then.
  - cbn [String.append] in *. rewrite no_start by exact S. rewrite IH. apply emit_then.
Qed.
Lemma read_inside q l ps : means q l ps -> q = true -> in_script true l -> survives true l -> forall t s, texted l t ->
  read (RText true) (t +++ String DQ s) = then_read ps (read (RText false) s).
Proof.
  induction 1 as [q|q c l ps M IH|q c l ps M IH|q b x a l ps N M IH|q f b x a l ps F N M IH|i l ps ps' M _ M' _]; intros Q I V t s T; [ | | | | |discriminate]; subst q.
  - inversion T; subst. cbn. now destruct (read (RText false) s).
  - inversion T as [|c' ? t' T' E| | |]; subst. apply code_inj in E as ->. inversion I as [|? c' ? A B I' EQ E|? ? A B I' EQ E| | |]; subst.
    + apply code_inj in E as ->. inversion V as [|? c' ? D V' EQ E| |? ? D V' EQ E| | | |]; subst; [|apply code_inj in E as <-; discriminate].
      cbn [String.append]. rewrite read_quoted_char by exact A. rewrite (IH eq_refl I' V' _ _ T'). apply emit_then.
    + apply code_inj in E as <-. inversion V as [|? c' ? D V' EQ E| |? ? D V' EQ E| | | |]; subst; [apply code_inj in E; congruence|].
      apply (quoted_dollar l); auto.
  - inversion T as [| |c' ? t' T' E| |]; subst. apply code_inj in E as ->. inversion I as [| | |? c2 ? I' EQ E| |]; subst. apply code_inj in E as ->.
    inversion V as [| |c' ? D V' EQ E| |? D V' EQ E|? D V' EQ E| |]; subst.
    + apply code_inj in E as ->. cbn [String.append]. rewrite read_quoted_char by exact D. rewrite (IH eq_refl I' V' _ _ T'). apply emit_then.
    + apply code_inj in E as <-. apply (quoted_dollar l); auto.
    + apply code_inj in E as <-. pose proof (IH eq_refl I' V' _ s T') as R. cbn [String.append].
      assert (X : exists d u, t' = String d u /\ protected d = false /\ Ascii.eqb d NL = false).
      { inversion D as [d k P|d k P]; subst; rewrite andb_true_iff, !negb_true_iff in P.
        - inversion T' as [|d' ? u T'' E| | |]; subst. apply code_inj in E as ->. eauto.
        - inversion T' as [| |d' ? u T'' E| |]; subst. apply code_inj in E as ->. eauto. }
      destruct X as (d & u & -> & P & L). cbn [String.append] in *.
      change (read (RText true) (String BS (String d (u +++ String DQ s)))) with (read (REscape true) (String d (u +++ String DQ s))).
      cbn [read]. rewrite L, P. cbn [negb orb]. rewrite <- emit_then, <- R. f_equal. symmetry. apply read_quoted_char.
      cbn in *. rewrite !orb_false_iff in *. tauto.
  - inversion T as [| | |f b' x' a' ? t' T' E|]; subst. apply lit_inj in H0 as ->. inversion I; subst. inversion V; subst.
    rewrite !sapp_assoc. rewrite read_param by exact N. rewrite IH by auto. apply emit_then.
  - inversion V; subst. congruence.
Qed.
Lemma plain_dollar l t ps : texted l t -> ~ next_starts l -> read (RText false) t = Some ps ->
  read (RText false) (String DOLLAR t) = Some (Lit false DOLLAR :: ps).
Proof.
  intros T N R. rewrite read_dollar. destruct (not_starts_first l t T N) as [->|(c & u & -> & S)].
  - injection R as <-. reflexivity.
  - rewrite no_start by exact S. now rewrite R.
Qed.
Lemma read_outside q l ps : means q l ps -> q = false -> in_script false l -> survives false l -> forall t, texted l t -> read (RText false) t = Some ps.
Proof.
  induction 1 as [q|q c l ps M IH|q c l ps M IH|q b x a l ps N M IH|q f b x a l ps F N M IH|i l ps ps' M _ M' IH]; intros Q I V t T; subst.
  - inversion T; subst. reflexivity.
  - inversion T as [|c' ? t' T' E| | |]; subst. apply code_inj in E as ->. inversion I as [|? c' ? A B I' EQ E|? ? A B I' EQ E| | |]; subst.
    + apply code_inj in E as ->. inversion V as [|? c' ? D V' EQ E| |? ? D V' EQ E| | | |]; subst; [|apply code_inj in E as <-; discriminate].
      destruct (B eq_refl) as (B1 & B2). rewrite read_plain_char by assumption. now rewrite (IH eq_refl I' V' _ T').
    + apply code_inj in E as <-. inversion V as [|? c' ? D V' EQ E| |? ? D V' EQ E| | | |]; subst; [apply code_inj in E; congruence|].
      apply (plain_dollar l); auto.
  - inversion V.
  - inversion T as [| | |f b' x' a' ? t' T' E|]; subst. apply lit_inj in H0 as ->. inversion I; subst. inversion V; subst.
    rewrite read_param by exact N. now rewrite IH.
  - inversion V; subst. congruence.
  - inversion T as [| | | |i' u ? t' U T']; subst. inversion I; subst. inversion V; subst.
    change (read (RText false) (String DQ (u +++ String DQ t'))) with (emit Quotes (read (RText true) (u +++ String DQ t'))).
    rewrite (read_inside true i ps M) by auto. now rewrite (IH eq_refl ltac:(assumption) ltac:(assumption) _ T').
Qed.

(** ** What is read survives *)
(** The number of backslashes *)
Fixpoint in_text (s : string) : nat :=
  match s with EmptyString => 0 | String c s' => (if Ascii.eqb c BS then 1 else 0) + in_text s' end.
Definition is_bs (p : part) : nat := match p with Lit _ c => if Ascii.eqb c BS then 1 else 0 | _ => 0 end.
Definition in_parts (ps : list part) : nat := list_sum (map is_bs ps).
Lemma in_text_app a b : in_text (a +++ b) = in_text a + in_text b.
Proof. induction a as [|c a IH]; [reflexivity|]. cbn. rewrite IH. lia. Qed.
Lemma in_parts_app a b : in_parts (a ++ b) = in_parts a + in_parts b.
Proof. unfold in_parts. rewrite map_app. apply list_sum_app. Qed.
Lemma in_parts_cons p l : in_parts (p :: l) = is_bs p + in_parts l.
Proof. reflexivity. Qed.
Lemma emit_count p r l n : emit p r = Some l -> (forall l', r = Some l' -> in_parts l' <= n) -> in_parts l <= is_bs p + n.
Proof. intros E H. apply emit_some in E as (l' & -> & E). rewrite in_parts_cons. specialize (H _ E). lia. Qed.
(** No more backslashes are read than there are. *)
Lemma read_count s : forall st l, read st s = Some l -> in_parts l <= (match st with REscape true => 1 | _ => 0 end) + in_text s.
Proof.
  induction s as [|c s IH]; intros st l E.
  - destruct st as [[]| |[]|[]|[] n|[] n]; cbn in E; try discriminate; injection E as <-; cbn; lia.
  - assert (TX : forall q l, read (RText q) (String c s) = Some l -> in_parts l <= in_text (String c s)).
    { clear l E. intros q l E. cbn [read] in E. cbn [in_text]. destruct (Ascii.eqb_spec c DQ) as [->|N1].
      { destruct q; [apply IH in E; cbn [Nat.add] in *; lia|]. eapply emit_count in E; [|intros l' E'; exact (IH _ _ E')]. cbn [is_bs in_text Nat.add] in *. lia. }
      destruct (Ascii.eqb_spec c BS) as [->|N2]; [apply IH in E; destruct q; cbn [is_bs in_text Nat.add] in *; lia|].
      destruct (Ascii.eqb c DOLLAR); [apply IH in E; cbn [is_bs in_text Nat.add] in *; lia|]. destruct (Ascii.eqb c "`"); [discriminate|].
      destruct q; [eapply emit_count in E; [|intros l' E'; exact (IH _ _ E')]; cbn [is_bs Nat.add] in *; destruct (Ascii.eqb_spec c BS); [contradiction|lia]|].
      destruct (Ascii.eqb c SQ); [eapply emit_count in E; [|intros l' E'; exact (IH _ _ E')]; cbn [is_bs in_text Nat.add] in *; lia|].
      destruct (ends_word c); [discriminate|]. eapply emit_count in E; [|intros l' E'; exact (IH _ _ E')]; cbn [is_bs Nat.add] in *; destruct (Ascii.eqb_spec c BS); [contradiction|lia]. }
    destruct st as [q| |q|q|q n|q n].
    + apply TX in E. cbn [Nat.add]. exact E.
    + cbn [read] in E. cbn [in_text]. destruct (Ascii.eqb c SQ); [apply IH in E; cbn [is_bs in_text Nat.add] in *; lia|].
      eapply emit_count in E; [|intros l' E'; exact (IH _ _ E')]. cbn [is_bs in_text Nat.add] in *. lia.
    + cbn [read] in E. cbn [in_text]. destruct (Ascii.eqb c NL); [apply IH in E; destruct q; cbn [is_bs in_text Nat.add] in *; lia|].
      destruct (negb q || protected c) eqn:P.
      * eapply emit_count in E; [|intros l' E'; exact (IH _ _ E')]. destruct q; cbn [is_bs in_text Nat.add] in *; lia.
      * apply emit_some in E as (l' & -> & E). eapply emit_count in E; [|intros l'' E'; exact (IH _ _ E')]. rewrite in_parts_cons.
        destruct q; [|discriminate]. cbn [is_bs in_text Nat.add] in *. rewrite Ascii.eqb_refl. lia.
    + destruct (starts c) eqn:S.
      * cbn [read] in E. cbn [in_text]. destruct (Ascii.eqb c "{"); [apply IH in E; cbn [is_bs in_text Nat.add] in *; lia|]. destruct (Ascii.eqb c "("); [discriminate|].
        destruct (name_first c); [apply IH in E; cbn [is_bs in_text Nat.add] in *; lia|]. destruct (digit c || special c); [eapply emit_count in E; [|intros l' E'; exact (IH _ _ E')]; cbn [is_bs in_text Nat.add] in *; lia|].
        eapply emit_count in E; [|intros l' E'; exact (TX q l' E')]. change (is_bs (Lit q DOLLAR)) with 0 in E. cbn [in_text Nat.add] in *. lia.
      * rewrite no_start in E by exact S. eapply emit_count in E; [|intros l' E'; exact (TX q l' E')]. change (is_bs (Lit q DOLLAR)) with 0 in E. cbn [in_text Nat.add] in *. lia.
    + cbn [read] in E. destruct (name_char c); [apply IH in E; cbn [is_bs in_text Nat.add] in *; lia|].
      eapply emit_count in E; [|intros l' E'; exact (TX q l' E')]. cbn [is_bs in_text Nat.add] in *. lia.
    + cbn [read] in E. cbn [in_text]. destruct (Ascii.eqb c "}"); [|apply IH in E; cbn [is_bs in_text Nat.add] in *; lia]. destruct (param_name n); [|discriminate].
      eapply emit_count in E; [|intros l' E'; exact (IH _ _ E')]. cbn [is_bs in_text Nat.add] in *. lia.
Qed.
(** A backslash that escapes is lost. *)
Lemma escape_count q c s l : read (REscape q) (String c s) = Some l -> negb q || protected c || Ascii.eqb c NL = true -> in_parts l <= in_text (String c s).
Proof.
  intros E H. cbn [read] in E. cbn [in_text]. destruct (Ascii.eqb c NL); [apply read_count in E; cbn in *; lia|]. rewrite orb_false_r in H. rewrite H in E.
  eapply emit_count in E; [|intros l' E'; exact (read_count _ _ _ E')]. cbn in *. lia.
Qed.
Lemma plain_count s l : read (RText false) (String BS s) = Some l -> in_parts l < in_text (String BS s).
Proof.
  intros E. change (read (REscape false) s = Some l) in E. destruct s as [|c s]; [discriminate|]. apply escape_count in E; [|reflexivity]. cbn in *. lia.
Qed.
Lemma name_no_bs (p : ascii -> bool) s : p BS = false -> all_of p s = true -> in_text s = 0.
Proof.
  intros N. induction s as [|c s IH]; [reflexivity|]. cbn. rewrite andb_true_iff. intros (A & B). rewrite (IH B).
  destruct (Ascii.eqb_spec c BS) as [->|]; [congruence|reflexivity].
Qed.
Lemma param_no_bs s : param_name s = true -> in_text s = 0.
Proof.
  destruct s as [|c s]; [discriminate|]. unfold param_name. rewrite !orb_true_iff, !andb_true_iff. intros [[(A & B)|A]|(A & B)].
  - cbn. rewrite (name_no_bs name_char s) by auto. destruct (Ascii.eqb_spec c BS) as [->|]; [discriminate|reflexivity].
  - now apply (name_no_bs digit).
  - apply String.eqb_eq in B as ->. cbn. destruct (Ascii.eqb_spec c BS) as [->|]; [discriminate|reflexivity].
Qed.
Lemma means_count q l ps : means q l ps -> forall t, texted l t -> in_parts ps = in_text t.
Proof.
  induction 1 as [q|q c l ps M IH|q c l ps M IH|q b x a l ps N M IH|q f b x a l ps F N M IH|i l ps ps' M IH M' IH']; intros t T.
  - inversion T; subst. reflexivity.
  - inversion T as [|c' ? t' T' E| | |]; subst. apply code_inj in E as ->. rewrite in_parts_cons, (IH _ T'). reflexivity.
  - inversion T as [| |c' ? t' T' E| |]; subst. apply code_inj in E as ->. rewrite in_parts_cons, (IH _ T'). reflexivity.
  - inversion T as [| | |f b' x' a' ? t' T' E|]; subst. apply lit_inj in H0 as ->. rewrite in_parts_cons, (IH _ T'), !in_text_app, (param_no_bs x N). reflexivity.
  - inversion T as [| | |f' b' x' a' ? t' T' E|]; subst. apply lit_inj in H0 as ->. rewrite in_parts_cons, (IH _ T'), !in_text_app, (param_no_bs x N). reflexivity.
  - inversion T as [| | | |i' u ? t' U T']; subst. rewrite in_parts_cons, in_parts_app, (IH _ U), (IH' _ T'). cbn. rewrite in_text_app. reflexivity.
Qed.
Lemma total_count q l ps t s ps' : means q l ps -> texted l t -> in_text s <= in_parts ps' -> in_text (t +++ String DQ s) <= in_parts (ps ++ ps').
Proof. intros M T L. rewrite in_parts_app, (means_count q l ps M t T), in_text_app. cbn. lia. Qed.
Lemma inside_exact q l ps : means q l ps -> q = true -> in_script true l -> forall t s ps', texted l t -> in_text s <= in_parts ps' ->
  read (RText true) (t +++ String DQ s) = Some (ps ++ ps') -> survives true l /\ read (RText false) s = Some ps'.
Proof.
  induction 1 as [q|q c l ps M IH|q c l ps M IH|q b x a l ps N M IH|q f b x a l ps F N M IH|i l ps ps' M _ M' _]; intros Q I t s ps'' T K R; [ | | | | |discriminate]; subst q.
  - inversion T; subst. split; [constructor|exact R].
  - inversion T as [|c' ? t' T' E| | |]; subst. apply code_inj in E as ->. cbn [app String.append] in R.
    inversion I as [|? c' ? A A' I' EQ E|? ? A A' I' EQ E| | |]; subst.
    + apply code_inj in E as ->. rewrite read_quoted_char in R by exact A. apply emit_some in R as (r & [= <-] & R).
      destruct (IH eq_refl I' _ _ _ T' K R) as (V & S). split; [|exact S].
      apply sv_char; [|exact V]. intros ->. discriminate.
    + apply code_inj in E as <-. rewrite read_dollar in R. destruct (starts_dec l t' T') as [W|W].
      * destruct (starts_first l t' T' W) as (d & u & -> & S). cbn [String.append] in R. apply (with_start _ _ _ _ S) in R as (n & r & [=]).
      * assert (R' : read (RText true) (t' +++ String DQ s) = Some (ps ++ ps'')).
        { destruct (not_starts_first l t' T' W) as [->|(d & u & -> & S)]; cbn [String.append] in *;
            [rewrite no_start in R by reflexivity|rewrite no_start in R by exact S]; apply emit_some in R as (r & [= <-] & R); exact R. }
        destruct (IH eq_refl I' _ _ _ T' K R') as (V & S). split; [|exact S]. now apply sv_dollar.
  - inversion T as [| |c' ? t' T' E| |]; subst. apply code_inj in E as ->. cbn [app String.append] in R.
    inversion I as [| | |? c2 ? I' EQ E| |]; subst. apply code_inj in E as ->.
    destruct (Ascii.eqb_spec c DQ) as [->|N1].
    { exfalso. cbn [read Ascii.eqb] in R. change (read (RText false) (t' +++ String DQ s) = Some (Lit true DQ :: ps ++ ps'')) in R.
      pose proof R as R'. apply head_false in R' as (s' & E). pose proof (total_count true l ps t' s ps'' M T' K) as G.
      rewrite E in R, G. apply plain_count in R. rewrite in_parts_cons in R. cbn in *. lia. }
    destruct (Ascii.eqb_spec c BS) as [->|N2].
    { change (read (REscape true) (t' +++ String DQ s) = Some (Lit true BS :: ps ++ ps'')) in R.
      pose proof (total_count true l ps t' s ps'' M T' K) as G.
      assert (X : exists d u, t' +++ String DQ s = String d u /\ negb (protected d) && negb (Ascii.eqb d NL) = true).
      { destruct (t' +++ String DQ s) as [|d u]; [discriminate|]. exists d, u. split; [reflexivity|].
        destruct (negb (protected d) && negb (Ascii.eqb d NL)) eqn:P; [reflexivity|]. exfalso. apply escape_count in R.
        - rewrite in_parts_cons in R. cbn [is_bs] in R. cbn in *. lia.
        - destruct (protected d), (Ascii.eqb d NL); try reflexivity; discriminate. }
      destruct X as (d & u & E & P). rewrite E in R. pose proof P as P'. apply andb_true_iff in P as (P1 & P2). apply negb_true_iff in P1, P2.
      cbn [read] in R. rewrite P1, P2 in R. cbn [negb orb] in R. apply emit_some in R as (r & [= <-] & R).
      assert (A : one_of [DQ; BS; DOLLAR; "`"%char] d = false) by (cbn in *; rewrite !orb_false_iff in *; tauto).
      rewrite <- read_quoted_char in R by exact A. rewrite <- E in R.
      destruct (IH eq_refl I' _ _ _ T' K R) as (V & S). split; [|exact S]. apply sv_escaped_backslash; [|exact V].
      destruct T' as [|c1 l1 t1 T1|c1 l1 t1 T1|f b x a l1 t1 T1|i u1 l1 t1 U1 T1]; cbn [String.append] in E; injection E as <- _; try discriminate; now constructor. } destruct (Ascii.eqb_spec c "`") as [->|N3]; [discriminate|].
    destruct (Ascii.eqb_spec c DOLLAR) as [->|N4].
    + rewrite read_dollar in R. destruct (starts_dec l t' T') as [W|W].
      * destruct (starts_first l t' T' W) as (d & u & -> & S). cbn [String.append] in R. apply (with_start _ _ _ _ S) in R as (n & r & [=]).
      * assert (R' : read (RText true) (t' +++ String DQ s) = Some (ps ++ ps'')).
        { destruct (not_starts_first l t' T' W) as [->|(d & u & -> & S)]; cbn [String.append] in *;
            [rewrite no_start in R by reflexivity|rewrite no_start in R by exact S]; apply emit_some in R as (r & [= <-] & R); exact R. }
        destruct (IH eq_refl I' _ _ _ T' K R') as (V & S). split; [|exact S]. now apply sv_escaped_dollar.
    + assert (A : one_of [DQ; BS; DOLLAR; "`"%char] c = false).
      { apply one_of4. repeat split; now apply Ascii.eqb_neq. }
      rewrite read_quoted_char in R by exact A. apply emit_some in R as (r & [= <-] & R).
      destruct (IH eq_refl I' _ _ _ T' K R) as (V & S). split; [|exact S]. now apply sv_escape.
  - inversion T as [| | |f b' x' a' ? t' T' E|]; subst. apply lit_inj in H0 as ->. inversion I; subst. cbn [app] in R.
    rewrite !sapp_assoc in R. rewrite read_param in R by exact N. apply emit_some in R as (r & [= <-] & R).
    destruct (IH eq_refl ltac:(assumption) _ _ _ T' K R) as (V & S). split; [|exact S]. now constructor.
  - exfalso. inversion T as [| | |f' b' x' a' ? t' T' E|]; subst. apply lit_inj in H0 as ->. cbn [app] in R.
    rewrite !sapp_assoc in R. rewrite read_param in R by exact N. apply emit_some in R as (r & [=] & R).
Qed.
Lemma outside_exact q l ps : means q l ps -> q = false -> in_script false l -> forall t, texted l t ->
  read (RText false) t = Some ps -> survives false l.
Proof.
  induction 1 as [q|q c l ps M IH|q c l ps M IH|q b x a l ps N M IH|q f b x a l ps F N M IH|i l ps ps' M _ M' IH]; intros Q I t T R; subst.
  - constructor.
  - inversion T as [|c' ? t' T' E| | |]; subst. apply code_inj in E as ->.
    inversion I as [|? c' ? A A' I' EQ E|? ? A A' I' EQ E| | |]; subst.
    + apply code_inj in E as ->. destruct (A' eq_refl) as (B1 & B2). rewrite read_plain_char in R by assumption. apply emit_some in R as (r & [= <-] & R).
      apply sv_char; [intros ->; discriminate|]. now apply (IH eq_refl I' _ T').
    + apply code_inj in E as <-. rewrite read_dollar in R. destruct (starts_dec l t' T') as [W|W].
      * destruct (starts_first l t' T' W) as (d & u & -> & S). apply (with_start _ _ _ _ S) in R as (n & r & [=]).
      * apply sv_dollar; [exact W|]. apply (IH eq_refl I' _ T').
        destruct (not_starts_first l t' T' W) as [->|(d & u & -> & S)].
        -- injection R as <-. reflexivity.
        -- rewrite no_start in R by exact S. apply emit_some in R as (r & [= <-] & R). exact R.
  - exfalso. inversion T as [| |c' ? t' T' E| |]; subst. apply code_inj in E as ->. pose proof R as R'. apply head_false in R' as (s' & E). injection E as -> ->.
    apply plain_count in R. rewrite in_parts_cons, (means_count false l ps M _ T') in R. cbn in R. lia.
  - inversion T as [| | |f b' x' a' ? t' T' E|]; subst. apply lit_inj in H0 as ->. inversion I; subst.
    rewrite read_param in R by exact N. apply emit_some in R as (r & [= <-] & R). constructor. eauto.
  - exfalso. inversion T as [| | |f' b' x' a' ? t' T' E|]; subst. apply lit_inj in H0 as ->.
    rewrite read_param in R by exact N. apply emit_some in R as (r & [=] & R).
  - inversion T as [| | | |i' u ? t' U T']; subst. inversion I; subst.
    change (read (RText false) (String DQ (u +++ String DQ t'))) with (emit Quotes (read (RText true) (u +++ String DQ t'))) in R.
    apply emit_some in R as (r & [= <-] & R). destruct (inside_exact true i ps M eq_refl ltac:(assumption) _ _ _ U ltac:(rewrite (means_count false l ps' M' _ T'); apply le_n) R) as (V & S).
    constructor; [exact V|]. eauto.
Qed.
Lemma word_is_text l t : texted l t -> l <> [] -> no_comment l -> (forall c l', l <> AE c :: l') -> read_word t = read (RText false) t.
Proof.
  intros T N C A. destruct T as [|c l t T|c l t T|f b x a l t T|i u l t U T]; [congruence| |now destruct (A (code c) l)|reflexivity|reflexivity].
  cbn [read_word]. destruct (Ascii.eqb_spec c "#") as [->|]; [|reflexivity]. now destruct (C l).
Qed.
Lemma survives_no_escape l : survives false l -> forall c l', l <> AE c :: l'.
Proof. intros V c l' ->. inversion V. Qed.

(** The text is read by the shell as the word it was if nothing needs its backslash and no
    parameter has an operator. *)
Theorem C64_shell : forall l ps, l <> [] -> means false l ps -> in_script false l -> no_comment l -> survives false l ->
  exists t, format_arg_chars l = Ok (lit t) /\ read_word t = Some ps.
Proof.
  intros l ps N M I C V. destruct (means_texted _ _ _ M) as (t & T). exists t. split; [now apply format_texted|].
  rewrite (word_is_text l t T N C (survives_no_escape l V)). now apply (read_outside false l).
Qed.
Print Assumptions C64_shell.
(** This is exact. *)
Theorem C64_shell_iff : forall l ps, l <> [] -> means false l ps -> in_script false l -> no_comment l ->
  exists t, format_arg_chars l = Ok (lit t) /\ (read_word t = Some ps <-> survives false l).
Proof.
  intros l ps N M I C. destruct (means_texted _ _ _ M) as (t & T). exists t. split; [now apply format_texted|]. split.
  - intros R. assert (R' : read (RText false) t = Some ps).
    { destruct t as [|c t]; [discriminate|]. cbn [read_word] in R. destruct (Ascii.eqb c "#"); [discriminate|exact R]. }
    now apply (outside_exact false l ps M eq_refl I t T).
  - intros V. rewrite (word_is_text l t T N C (survives_no_escape l V)). now apply (read_outside false l).
Qed.
Print Assumptions C64_shell_iff.
(** -n"${x}\.$": the backslash before the period and the dollar at the end survive. *)
Example C64_shell_case :
  let l := [AC (code "-"); AC (code "n"); AQ [AV [lit "Normal"; lit "False"; lit "x"; lit "[]"]; AE (code BS); AC (code "."); AE (code DOLLAR)]] in
  let ps := [Lit false "-"; Lit false "n"; Quotes; Param true "x"; Lit true BS; Lit true "."; Lit true DOLLAR]%char in
  l <> [] /\ means false l ps /\ in_script false l /\ no_comment l /\ survives false l /\
  format_arg_chars l = Ok (lit "-n""${x}\.$""") /\ read_word "-n""${x}\.$""" = Some ps.
Proof.
  cbn zeta. split; [discriminate|]. split.
  { apply mn_char, mn_char. apply (mn_quoted _ [] [Param true "x"; Lit true BS; Lit true "."; Lit true DOLLAR]%char []); [|constructor].
    repeat constructor. }
  split.
  { apply sc_char; [reflexivity|split; [discriminate|reflexivity]|]. apply sc_char; [reflexivity|split; [discriminate|reflexivity]|].
    constructor; [|constructor]. do 2 constructor. apply sc_char; [reflexivity|discriminate|]. repeat constructor. }
  split; [intros l'; discriminate|]. split; [|split; reflexivity].
  apply sv_char; [discriminate|]. apply sv_char; [discriminate|]. constructor; [|constructor]. constructor. apply sv_escaped_backslash; [now constructor|].
  apply sv_char; [discriminate|]. apply sv_escaped_dollar; [inversion 1|constructor].
Qed.

(** Refuted in general: a dollar that was escaped within quotes (or stood in single quotes) and is
    followed by a name becomes a parameter, whatever the name. *)
Definition chars (s : string) : list arg_char := map (fun c => AC (code c)) (list_ascii_of_string s).
Lemma chars_texted s : texted (chars s) s.
Proof. induction s; constructor; assumption. Qed.
Lemma chars_mean q s : means q (chars s) (map (Lit q) (list_ascii_of_string s)).
Proof. induction s; constructor; assumption. Qed.
Lemma name_char_plain c : name_char c = true -> one_of [DQ; BS; DOLLAR; "`"%char] c = false.
Proof.
  intros N. destruct (one_of _ c) eqn:E; [|reflexivity]. cbn in E. rewrite !orb_true_iff in E.
  destruct E as [E|[E|[E|[E|E]]]]; try discriminate; apply Ascii.eqb_eq in E as ->; discriminate.
Qed.
Lemma chars_script s : all_of name_char s = true -> in_script true (chars s).
Proof.
  induction s as [|c s IH]; [constructor|]. cbn. rewrite andb_true_iff. intros (A & B). apply sc_char; [now apply name_char_plain|discriminate|auto].
Qed.
Lemma read_name x : forall q n s, all_of name_char x = true -> read (RName q n) (x +++ String DQ s) = emit (Param q (n +++ x)) (read (RText q) (String DQ s)).
Proof.
  induction x as [|c x IH]; intros q n s A.
  - rewrite sapp_nil_r. reflexivity.
  - cbn in A. apply andb_true_iff in A as (A & B). cbn [String.append read]. rewrite A, IH by exact B. rewrite sapp_assoc. reflexivity.
Qed.
Theorem C64_dollar_refuted : forall c x, name_first c = true -> all_of name_char x = true ->
  let l := [AQ (AE (code DOLLAR) :: chars (String c x))] in
  means false l (Quotes :: Lit true DOLLAR :: map (Lit true) (list_ascii_of_string (String c x))) /\ in_script false l /\ no_comment l /\
  exists t, format_arg_chars l = Ok (lit t) /\ read_word t = Some [Quotes; Param true (String c x)].
Proof.
  intros c x F N l. assert (A : all_of name_char (String c x) = true) by (cbn; unfold name_char at 1; now rewrite F, N). repeat split.
  - rewrite <- (app_nil_r (Lit true DOLLAR :: _)). apply mn_quoted; [|constructor]. constructor. apply chars_mean.
  - constructor; [|constructor]. constructor. now apply chars_script.
  - intros l'. discriminate.
  - exists (String DQ (String DOLLAR (String c x) +++ String DQ "")). split.
    + apply format_texted. constructor; [|constructor]. constructor. apply chars_texted.
    + change (emit Quotes (read (RDollar true) (String c (x +++ String DQ ""))) = Some [Quotes; Param true (String c x)]).
      replace (read (RDollar true) (String c (x +++ String DQ ""))) with (read (RName true (one_char c)) (x +++ String DQ "")).
      * rewrite read_name by exact N. reflexivity.
      * cbn [read]. destruct (Ascii.eqb_spec c "{") as [->|]; [discriminate|]. destruct (Ascii.eqb_spec c "(") as [->|]; [discriminate|]. now rewrite F.
Qed.
Print Assumptions C64_dollar_refuted.
Example C64_dollar_case : format_arg_chars [AQ [AE 36; AC 49; AC 120]] = Ok (lit """$1x""") /\
  read_word """$1x""" = Some [Quotes; Param true "1"; Lit true "x"]%char /\ read_word """\$1x""" = Some [Quotes; Lit true "$"; Lit true "1"; Lit true "x"]%char.
Proof. repeat split. Qed.
(** Operators of parameters leave no trace, whatever the operator and its argument. *)
Theorem C64_operator_refuted : forall f b x a, f <> lit "Normal" -> param_name x = true ->
  means false [AV [f; b; lit x; a]] [ParamOp false f (lit x) a] /\
  exists t, format_arg_chars [AV [f; b; lit x; a]] = Ok (lit t) /\ read_word t = Some [Param false x].
Proof.
  intros f b x a F N. split; [now repeat constructor|]. exists ("${" +++ x +++ "}" +++ ""). split; [apply format_texted; repeat constructor|].
  change (read (RText false) ("${" +++ x +++ "}" +++ "") = Some [Param false x]). now rewrite read_param.
Qed.
Print Assumptions C64_operator_refuted.
Example C64_operator_case : format_arg_chars [AV [lit "Length"; lit "False"; lit "x"; lit "[]"]] = Ok (lit "${x}") /\ read_word "${x}" = Some [Param false "x"].
Proof. split; reflexivity. Qed.

(** Refuted for every command substitution: the syntax tree of the command, a list of the name of
    its kind and of its parts, is printed as Python prints lists.  Whatever the command is, its text
    begins with a word that a blank follows and that stands for a command with the name [K,] in
    brackets as Python writes them, where K is the kind of the tree. *)
Lemma read_single K : forall s, all_of name_char K = true ->
  read RSingle (K +++ String SQ s) = match read (RText false) s with Some l => Some (map (Lit true) (list_ascii_of_string K) ++ l) | None => None end.
Proof.
  induction K as [|c K IH]; intros s A.
  - cbn. now destruct (read (RText false) s).
  - cbn [all_of] in A. apply andb_true_iff in A as (A & B). cbn [String.append read list_ascii_of_string map app].
    destruct (Ascii.eqb_spec c SQ) as [->|_]; [discriminate|]. rewrite (IH s B). now destruct (read (RText false) s).
Qed.
Lemma lit_app s t : lit (s +++ t) = lit s ++ lit t.
Proof. unfold lit. induction s as [|c s IH]; [reflexivity|]. cbn in *. now rewrite IH. Qed.
Theorem C64_substitution_refuted : forall K rest, all_of name_char K = true ->
  exists first, format_arg_chars [AB (lit ("['" +++ K +++ "', " +++ rest +++ "]"))] = Ok (lit ("$(" +++ first +++ " " +++ rest +++ "])")) /\
    read_word first = Some (Lit false "[" :: Quotes :: map (Lit true) (list_ascii_of_string K) ++ [Lit false ","])%char.
Proof.
  intros K rest A. exists ("['" +++ K +++ "',"). split.
  - cbn [format_arg_chars map_result bind format_arg_char List.concat]. rewrite app_nil_r, <- !lit_app, !sapp_assoc. reflexivity.
  - change (emit (Lit false "[") (emit Quotes (read RSingle (K +++ String SQ ","))) = Some (Lit false "[" :: Quotes :: map (Lit true) (list_ascii_of_string K) ++ [Lit false ","])%char).
    rewrite read_single by exact A. reflexivity.
Qed.
Print Assumptions C64_substitution_refuted.
(** $(ls) becomes $(['Command', [1, [], [[['C', 108], ['C', 115]]], []]]). *)
Example C64_substitution_case : format_arg_chars [AB (lit "['Command', [1, [], [[['C', 108], ['C', 115]]], []]]")] =
  Ok (lit "$(['Command', [1, [], [[['C', 108], ['C', 115]]], []]])") /\ option_map (@length part) (read_word "['Command',") = Some 10.
Proof. split; reflexivity. Qed.
