(** * C64: formatting arguments *)
From Coq Require Import ZArith Lia.
Require Import Verif.PyBase Verif.Shlex Verif.SpecShlex Verif.ShlexFacts Verif.ArgChars Verif.SpecArgChars.

Fixpoint arg_char_rect' (P : arg_char -> Prop) (HC : forall z, P (AC z)) (HB : forall t, P (AB t))
  (HQ : forall l, Forall P l -> P (AQ l)) (HV : forall l, P (AV l)) (HE : forall z, P (AE z)) (HO : forall k, P (AOther k)) (HS : P AShort)
  (a : arg_char) : P a :=
  match a with
  | AC z => HC z | AB t => HB t | AV l => HV l | AE z => HE z | AOther k => HO k | AShort => HS
  | AQ l => HQ l ((fix all (l : list arg_char) : Forall P l :=
                     match l with [] => Forall_nil P | x :: l' => Forall_cons x (arg_char_rect' P HC HB HQ HV HE HO HS x) (all l') end) l)
  end.
Lemma format_quoted l : format_arg_char (AQ l) = let! t := format_arg_chars l in Ok (lit """" ++ t ++ lit """").
Proof.
  unfold format_arg_chars. cbn [format_arg_char].
  assert (E : forall l, (fix format_all (l : list arg_char) : result (list text) :=
                   match l with
                   | [] => Ok []
                   | x :: l' => let! t := format_arg_char x in let! ts := format_all l' in Ok (t :: ts)
                   end) l = map_result format_arg_char l).
  { clear. induction l as [|x l IH]; [reflexivity|]. cbn [map_result]. now rewrite <- IH. }
  rewrite E. destruct (map_result format_arg_char l); reflexivity.
Qed.
Lemma format_cons x l : format_arg_chars (x :: l) =
  let! t := format_arg_char x in let! t' := format_arg_chars l in Ok (t ++ t').
Proof.
  unfold format_arg_chars. cbn [map_result]. destruct (format_arg_char x); [|reflexivity]. cbn [bind].
  destruct (map_result format_arg_char l); reflexivity.
Qed.

(** Formatting goes entry by entry; the first entry that cannot be formatted decides. *)
Theorem C64_append : forall l l', format_arg_chars (l ++ l') =
  let! t := format_arg_chars l in let! t' := format_arg_chars l' in Ok (t ++ t').
Proof.
  intros l l'. induction l as [|x l IH]; cbn [app].
  - cbn. destruct (format_arg_chars l'); reflexivity.
  - rewrite !format_cons, IH. destruct (format_arg_char x); [|reflexivity]. cbn [bind].
    destruct (format_arg_chars l); [|reflexivity]. cbn [bind]. destruct (format_arg_chars l'); [|reflexivity]. cbn [bind]. now rewrite app_assoc.
Qed.
Print Assumptions C64_append.
Theorem C64_quoted : forall l t, format_arg_chars [AQ l] = Ok t <->
  exists t', format_arg_chars l = Ok t' /\ t = lit """" ++ t' ++ lit """".
Proof.
  intros l t. rewrite format_cons, format_quoted. destruct (format_arg_chars l) as [t'|e]; cbn.
  - rewrite app_nil_r. split.
    + intros [= <-]. eauto.
    + intros (t'' & [= <-] & ->). reflexivity.
  - split; [discriminate|]. intros (t' & H & _). discriminate.
Qed.
Print Assumptions C64_quoted.

(** ** When formatting succeeds *)
Lemma chr_ok z : (exists t, chr z = Ok t) <-> is_code z.
Proof.
  unfold chr, is_code. destruct (Z.leb_spec 0 z), (Z.leb_spec z 1114111); cbn; split; intros K; try lia; eauto; destruct K; discriminate.
Qed.
Lemma chr_raises z e : chr z = Raise e -> e = ValueError.
Proof. unfold chr. destruct (_ && _); intros [=]; auto. Qed.
Lemma all_ok l : Forall (fun x => (exists t, format_arg_char x = Ok t) <-> formattable x) l ->
  (exists t, format_arg_chars l = Ok t) <-> forall x, In x l -> formattable x.
Proof.
  induction 1 as [|x l X H IH]; [split; [intros _ x []|eexists; reflexivity]|]. rewrite format_cons. split.
  - intros (t & E) y [<-|I].
    + apply X. destruct (format_arg_char x); [eauto|discriminate].
    + apply IH; [|exact I]. destruct (format_arg_char x); [|discriminate]. cbn in E. destruct (format_arg_chars l); [eauto|discriminate].
  - intros A. destruct (proj2 X (A x (or_introl eq_refl))) as (t & ->). destruct (proj2 IH (fun y I => A y (or_intror I))) as (t' & ->). cbn. eauto.
Qed.
Lemma one_ok x : (exists t, format_arg_char x = Ok t) <-> formattable x.
Proof.
  induction x using arg_char_rect'.
  - cbn [format_arg_char]. rewrite chr_ok. split; [now constructor|now inversion 1].
  - split; [constructor|]. intros _. cbn. eauto.
  - rewrite format_quoted. pose proof (all_ok l H) as A.
    split.
    + intros (t & E). constructor. apply A. destruct (format_arg_chars l); [eauto|discriminate].
    + intros F. inversion F as [| | | |? Q]; subst. destruct (proj2 A Q) as (t & ->). cbn. eauto.
  - cbn [format_arg_char]. split.
    + intros (t & E). constructor. apply nth_error_Some. destruct (nth_error l 2); [discriminate|discriminate].
    + intros F. inversion F as [| | |? L|]; subst. apply nth_error_Some in L. destruct (nth_error l 2); [eauto|congruence].
  - cbn [format_arg_char]. rewrite chr_ok. split; [now constructor|now inversion 1].
  - split; [intros (t & E); discriminate|inversion 1].
  - split; [intros (t & E); discriminate|inversion 1].
Qed.
Theorem C64_succeeds_iff : forall l, (exists t, format_arg_chars l = Ok t) <-> Forall formattable l.
Proof.
  intros l. rewrite all_ok by (apply Forall_forall; intros x _; apply one_ok). symmetry. apply Forall_forall.
Qed.
Print Assumptions C64_succeeds_iff.
Lemma all_raise l : Forall (fun x => forall e, format_arg_char x = Raise e -> In e [NotImplementedError; ValueError; IndexError] /\ (e = NotImplementedError -> occurs_in unknown [x])) l ->
  forall e, format_arg_chars l = Raise e -> In e [NotImplementedError; ValueError; IndexError] /\ (e = NotImplementedError -> occurs_in unknown l).
Proof.
  induction 1 as [|x l X H IH]; intros e; [discriminate|]. rewrite format_cons. destruct (format_arg_char x) as [t|e'] eqn:E; cbn.
  - destruct (format_arg_chars l) as [t'|e'']; [discriminate|]. cbn. intros [= <-]. destruct (IH _ eq_refl) as (A & B). split; [exact A|].
    intros K. apply oc_later. auto.
  - intros [= <-]. destruct (X _ eq_refl) as (A & B). split; [exact A|]. intros K. specialize (B K).
    inversion B as [? ? U|? ? U|? ? U]; subst; [now apply oc_here|inversion U|now apply oc_quoted].
Qed.
Lemma one_raise x : forall e, format_arg_char x = Raise e -> In e [NotImplementedError; ValueError; IndexError] /\ (e = NotImplementedError -> occurs_in unknown [x]).
Proof.
  induction x using arg_char_rect'; intros e E.
  - apply chr_raises in E as ->. cbn. split; [auto|discriminate].
  - discriminate.
  - rewrite format_quoted in E. destruct (format_arg_chars l) eqn:F; [discriminate|]. injection E as <-.
    destruct (all_raise l H _ F) as (A & B). split; [exact A|]. intros K. apply oc_quoted. auto.
  - cbn [format_arg_char] in E. destruct (nth_error l 2); [discriminate|]. injection E as <-. cbn. split; [auto|discriminate].
  - apply chr_raises in E as ->. cbn. split; [auto|discriminate].
  - injection E as <-. cbn. split; [auto|]. intros _. apply oc_here. now exists k.
  - injection E as <-. cbn. split; [auto|discriminate].
Qed.
(** The only exceptions; NotImplementedError is due to an entry of unknown kind. *)
Theorem C64_raises : forall l e, format_arg_chars l = Raise e ->
  In e [NotImplementedError; ValueError; IndexError] /\ (e = NotImplementedError -> occurs_in unknown l).
Proof. intros l. apply all_raise, Forall_forall. intros x _. apply one_raise. Qed.
Print Assumptions C64_raises.
Example C64_case_raises : format_arg_chars [AC 97; AQ [AB (lit "ls"); AOther (lit "A")]; AC (-1)] = Raise NotImplementedError.
Proof. reflexivity. Qed.

(** ** What is printed *)
Lemma all_printed l : Forall (fun x => forall t, format_arg_char x = Ok t <-> printed x t) l ->
  forall t, format_arg_chars l = Ok t <-> exists ts, Forall2 printed l ts /\ t = List.concat ts.
Proof.
  induction 1 as [|x l X H IH]; intros t.
  - split; [intros [= <-]; exists []; split; [constructor|reflexivity]|]. intros (ts & F & ->). inversion F; subst. reflexivity.
  - rewrite format_cons. split.
    + destruct (format_arg_char x) as [t1|] eqn:E; [|discriminate]. cbn. destruct (format_arg_chars l) as [t2|] eqn:E2; [|discriminate]. cbn. intros [= <-].
      destruct (proj1 (IH t2) eq_refl) as (ts & F & ->). exists (t1 :: ts). split; [constructor; [now apply X|exact F]|reflexivity].
    + intros (ts & F & ->). inversion F as [|? t1 ? ts' P F']; subst. rewrite (proj2 (X t1) P). cbn.
      rewrite (proj2 (IH (List.concat ts')) (ex_intro _ ts' (conj F' eq_refl))). reflexivity.
Qed.
Lemma one_printed x : forall t, format_arg_char x = Ok t <-> printed x t.
Proof.
  assert (CH : forall z t, chr z = Ok t <-> is_code z /\ t = [z]).
  { intros z t. unfold chr, is_code. destruct (Z.leb_spec 0 z), (Z.leb_spec z 1114111); cbn; split; intros K; try discriminate; try lia.
    - injection K as <-. auto.
    - now destruct K as (_ & ->). }
  induction x using arg_char_rect'; intros u.
  - cbn [format_arg_char]. rewrite CH. split; [intros (C & ->); now constructor|inversion 1; auto].
  - split; [intros [= <-]; constructor|inversion 1; reflexivity].
  - rewrite format_quoted. pose proof (all_printed l H) as A. split.
    + destruct (format_arg_chars l) as [t'|] eqn:E; [|discriminate]. cbn. intros [= <-]. destruct (proj1 (A t') eq_refl) as (ts & F & ->).
      exact (pr_quoted l ts F).
    + inversion 1 as [| | | |? ts F]; subst. rewrite (proj2 (A (List.concat ts)) (ex_intro _ ts (conj F eq_refl))). reflexivity.
  - destruct l as [|a [|b [|v l]]]; cbn; split; try discriminate; try (now inversion 1).
    intros [= <-]. apply pr_variable.
  - cbn [format_arg_char]. rewrite CH. split; [intros (C & ->); now constructor|inversion 1; auto].
  - split; [discriminate|inversion 1].
  - split; [discriminate|inversion 1].
Qed.
(** Each entry is printed as it should be, one after the other. *)
Theorem C64_text_iff : forall l t, format_arg_chars l = Ok t <-> exists ts, Forall2 printed l ts /\ t = List.concat ts.
Proof. intros l. apply all_printed, Forall_forall. intros x _. apply one_printed. Qed.
Print Assumptions C64_text_iff.
Example C64_text_case : format_arg_chars [AV [lit "Normal"; lit "False"; lit "x"; lit "[]"]; AQ [AB (lit "ls")]] = Ok (lit "${x}""$(ls)""").
Proof.
  apply C64_text_iff. exists [lit "${" ++ lit "x" ++ lit "}"; lit """" ++ List.concat [lit "$(" ++ lit "ls" ++ lit ")"] ++ lit """"].
  split; [repeat constructor|reflexivity].
Qed.

(** ** Reading the text again *)
Lemma code_ok c : chr (code c) = Ok [code c].
Proof.
  unfold chr. assert (H : (0 <= code c < 256)%Z).
  { unfold code. pose proof (nat_ascii_bounded c). lia. }
  destruct (Z.leb_spec 0 (code c)); [|lia]. destruct (Z.leb_spec (code c) 1114111); [reflexivity|lia].
Qed.
Lemma lit_app a b : lit (a +++ b) = lit a ++ lit b.
Proof. induction a as [|c a IH]; [reflexivity|]. cbn. f_equal. exact IH. Qed.
Lemma format_inner q t : inner q t -> format_arg_chars q = Ok (lit t).
Proof. induction 1 as [|c l m H IH|c l m H IH]; [reflexivity| |]; rewrite format_cons; cbn [format_arg_char]; rewrite code_ok; cbn [bind]; now rewrite IH. Qed.
(** The text of a word *)
Inductive shown : list arg_char -> string -> Prop :=
| sh_nil : shown [] ""
| sh_char c l m : shown l m -> shown (AC (code c) :: l) (String c m)
| sh_escape c l m : shown l m -> shown (AE (code c) :: l) (String c m)
| sh_quoted q t l m : inner q t -> shown l m -> shown (AQ q :: l) (String DQ (t +++ String DQ m)).
Lemma format_shown l t : shown l t -> format_arg_chars l = Ok (lit t).
Proof.
  induction 1 as [|c l m H IH|c l m H IH|q t l m I H IH]; [reflexivity| | |].
  - rewrite format_cons. cbn [format_arg_char]. rewrite code_ok. cbn [bind]. now rewrite IH.
  - rewrite format_cons. cbn [format_arg_char]. rewrite code_ok. cbn [bind]. now rewrite IH.
  - rewrite format_cons, format_quoted, (format_inner _ _ I). cbn [bind]. rewrite IH. cbn [bind]. f_equal.
    change (lit (String DQ (t +++ String DQ m))) with (code DQ :: lit (t +++ String DQ m)).
    rewrite lit_app. change (lit (String DQ m)) with (code DQ :: lit m). change (lit """") with [code DQ]. cbn [app]. now rewrite <- app_assoc.
Qed.
Lemma word_shown l m : denotes_word l m -> exists t, shown l t.
Proof. induction 1 as [|c l m H (t & IH)|c l m H (t & IH)|q t' l m I H (t & IH)]; eexists; constructor; eassumption. Qed.
Lemma code_inj c d : code c = code d -> c = d.
Proof. unfold code. intros E. apply Nat2Z.inj in E. rewrite <- (ascii_nat_embedding c), <- (ascii_nat_embedding d). now rewrite E. Qed.
Lemma inner_body q : quoted_harmless q -> inner_from_shell q -> forall t, inner q t -> dq_body t t.
Proof.
  induction 1 as [|z l Q IH|c l A B Q IH|c l A B Q IH|c l A B Q IH]; intros F t I.
  - inversion I; subst. constructor.
  - inversion I as [|c' ? m I' E|]; subst. inversion F as [|c'' ? A B F' E|]; subst. apply code_inj in E as ->. apply dq_plain; auto.
  - inversion I as [| |c' ? m I' E]; subst. apply code_inj in E as ->. inversion F; subst. apply dq_plain; auto.
  - inversion I as [| |c' ? m I' E]; subst. apply code_inj in E as ->. inversion I' as [|c' ? m' I'' E|]; subst. apply code_inj in E as ->.
    inversion F as [| |? ? F']; subst. inversion F' as [|c'' ? A' B' F'' E|]; subst. apply dq_literal_backslash; auto.
  - inversion I as [| |c' ? m I' E]; subst. apply code_inj in E as ->. inversion I' as [| |c' ? m' I'' E]; subst. apply code_inj in E as ->.
    inversion F as [| |? ? F']; subst. inversion F'; subst. apply dq_literal_backslash; auto.
Qed.
Lemma inner_fun q t : inner q t -> forall t', inner q t' -> t = t'.
Proof.
  induction 1 as [|c l m H IH|c l m H IH]; intros t' I; inversion I as [|c' ? ? I' E|c' ? ? I' E]; subst; try reflexivity;
    apply code_inj in E as ->; f_equal; auto.
Qed.
Lemma word_read l m : denotes_word l m -> from_shell l -> escapes_harmless l -> forall t, shown l t -> word_text t m /\ (l <> [] -> t <> "").
Proof.
  induction 1 as [|c l m H IH|c l m H IH|q t' l m I H IH]; intros F E t S.
  - inversion S; subst. split; [constructor|congruence].
  - inversion S as [|c' ? m' S' E'| |]; subst. apply code_inj in E' as ->. inversion F as [|c' ? (A & B & C & D) F' E'| |]; subst. apply code_inj in E' as ->.
    inversion E; subst. destruct (IH F' ltac:(assumption) _ S') as (W & _). split; [now apply wt_plain|discriminate].
  - inversion S as [| |c' ? m' S' E'|]; subst. apply code_inj in E' as ->. inversion F; subst.
    inversion E as [| |c' ? (A & B & C & D) E1 E'|]; subst. apply code_inj in E' as ->.
    destruct (IH ltac:(assumption) E1 _ S') as (W & _). split; [now apply wt_plain|discriminate].
  - inversion S as [| | |? t0 ? m' I' S']; subst. pose proof (inner_fun _ _ I _ I') as <-. inversion F; subst. inversion E; subst.
    destruct (IH ltac:(assumption) ltac:(assumption) _ S') as (W & _). split; [|discriminate].
    apply wt_double; [|exact W]. eapply inner_body; eassumption.
Qed.
(** The text is read back as the one word it was, unless an escaped character needed its backslash. *)
Theorem C64_read_back : forall l m, l <> [] -> denotes_word l m -> from_shell l -> escapes_harmless l ->
  exists t, format_arg_chars l = Ok (lit t) /\ shlex_split t = Ok [m].
Proof.
  intros l m N D F E. destruct (word_shown l m D) as (t & S). exists t. split; [now apply format_shown|].
  destruct (word_read l m D F E t S) as (W & T). apply tokenises_lex. apply (tk_last "" t m); [exact I|auto|exact W].
Qed.
Print Assumptions C64_read_back.
Example C64_case : exists t, format_arg_chars [AC 45; AC 110; AQ [AC 97; AC 32; AE 36]; AE 126] = Ok (lit t) /\ shlex_split t = Ok ["-na $~"].
Proof.
  apply (C64_read_back [AC (code "-"); AC (code "n"); AQ [AC (code "a"); AC (code " "); AE (code "$")]; AE (code "~")] "-na $~").
  - discriminate.
  - repeat constructor. apply (dw_quoted _ "a $" _ "~"); repeat constructor.
  - repeat constructor; unfold blank; intuition discriminate.
  - repeat constructor; unfold blank; intuition discriminate.
Qed.

(** This is exact. *)
(** The number of characters other than double quotes *)
Fixpoint others (s : string) : nat :=
  match s with EmptyString => 0 | String c s' => if Ascii.eqb c DQ then others s' else S (others s') end.
Lemma others_app a b : others (a +++ b) = others a + others b.
Proof. induction a as [|c a IH]; [reflexivity|]. cbn. destruct (Ascii.eqb c DQ); cbn; now rewrite IH. Qed.
Lemma others_char c s : c <> DQ -> others (String c s) = S (others s).
Proof. intros N. cbn. destruct (Ascii.eqb_spec c DQ); [contradiction|reflexivity]. Qed.
Lemma others_le c s : others (String c s) <= S (others s).
Proof. cbn. destruct (Ascii.eqb c DQ); lia. Qed.
Lemma others_dq s : others (String DQ s) = others s.
Proof. reflexivity. Qed.
Lemma others_bs s : others (String BS s) = S (others s).
Proof. reflexivity. Qed.
Lemma others_sq s : others (String SQ s) = S (others s).
Proof. reflexivity. Qed.
Lemma others_body t m : dq_body t m -> others m <= others t /\ (others m = others t -> dq_body t t).
Proof.
  induction 1 as [|c t m A B H (IH & IH')|c t m A H (IH & IH')|c t m A B H (IH & IH')].
  - split; [auto|]. intros _. constructor.
  - rewrite !others_char by assumption. split; [lia|]. intros E. apply dq_plain; auto.
  - rewrite others_bs. split; [destruct A as [-> | ->]; cbn; lia|]. intros E. destruct A as [-> | ->]; cbn in E; lia.
  - rewrite !others_bs, !others_char by assumption. split; [lia|]. intros E. apply dq_literal_backslash; auto. apply IH'. lia.
Qed.
(** Words in which no backslash and no single quote is dropped *)
Inductive clean : string -> string -> Prop :=
| cl_nil : clean "" ""
| cl_plain c t m : plain_char c -> clean t m -> clean (String c t) (String c m)
| cl_double body t m : dq_body body body -> clean t m -> clean (String DQ (body +++ String DQ t)) (body +++ m).
Lemma body_same t m : dq_body t m -> dq_body t t -> m = t.
Proof.
  induction 1 as [|c t m A B H IH|c t m A H IH|c t m A B H IH]; intros K; [reflexivity| | |].
  - inversion K as [|? ? ? A' B' K'|? ? ? [?|?] K'|? ? ? A' B' K']; subst; try congruence. now rewrite IH.
  - exfalso. inversion K as [|? ? ? A' B' K'|? ? ? A' K'|? ? ? A' B' K']; subst; try congruence; [|destruct A; congruence].
    apply others_body in K' as (L & _). cbn in L. lia.
  - inversion K as [|? ? ? A' B' K'|? ? ? [?|?] K'|? ? ? A' B' K']; subst; try congruence. now rewrite IH.
Qed.
Lemma others_word t m : word_text t m -> others m <= others t /\ (others m = others t -> clean t m).
Proof.
  induction 1 as [|c t m A B C D H (IH & IH')|c t m H (IH & _)|body t m A H (IH & _)|body bm t m A H (IH & IH')].
  - split; [auto|]. intros _. constructor.
  - rewrite !others_char by assumption. split; [lia|]. intros E. apply cl_plain; [repeat split; assumption|auto].
  - rewrite others_bs. pose proof (others_le c m). assert (others (String c m) <= others (String c t)).
    { cbn. destruct (Ascii.eqb c DQ); lia. }
    split; lia.
  - rewrite others_sq, !others_app, others_sq. split; lia.
  - rewrite others_dq, !others_app, others_dq. destruct (others_body _ _ A) as (L & K). split; [lia|]. intros E.
    assert (K' : dq_body body body) by (apply K; lia). rewrite (body_same _ _ A K'). apply cl_double; [exact K'|]. apply IH'. lia.
Qed.
Lemma body_no_dq t m : dq_body t m -> t = m -> all_chars (fun c => c <> DQ) t.
Proof.
  induction 1 as [|c t m A B H IH|c t m A H IH|c t m A B H IH]; intros E; [exact I| | |].
  - injection E as E. split; auto.
  - exfalso. injection E as <- E. destruct A as [A|A]; [discriminate|]. apply others_body in H as (L & _). subst m. cbn in L. lia.
  - injection E as E. split; [discriminate|]. split; auto.
Qed.
Lemma all_app P a b : all_chars P (a +++ b) <-> all_chars P a /\ all_chars P b.
Proof. induction a as [|c a IH]; cbn; [tauto|]. rewrite IH. tauto. Qed.
Lemma clean_no_dq t m : clean t m -> all_chars (fun c => c <> DQ) m.
Proof.
  induction 1 as [|c t m (_ & _ & A & _) H IH|body t m B H IH]; [exact I|now split|]. apply all_app. split; [|exact IH].
  eapply body_no_dq; [exact B|reflexivity].
Qed.
Lemma others_shown l t : shown l t -> forall m, denotes_word l m -> others t = others m.
Proof.
  induction 1 as [|c l t H IH|c l t H IH|q t' l t A H IH]; intros m D.
  - now inversion D.
  - inversion D as [|c' ? m' D' E| |]; subst. apply code_inj in E as ->. cbn. now rewrite (IH _ D').
  - inversion D as [| |c' ? m' D' E|]; subst. apply code_inj in E as ->. cbn. now rewrite (IH _ D').
  - inversion D as [| | |? t'' ? m' A' D']; subst. rewrite <- (inner_fun _ _ A _ A'), others_dq, !others_app, others_dq. now rewrite (IH _ D').
Qed.
(** If no character is dropped but double quotes, the text is one word. *)
Lemma one_word t m : shlex_split t = Ok [m] -> others m = others t -> clean t m.
Proof.
  intros H E. apply split_iff_tokenises in H.
  assert (OB : forall b, all_chars blank b -> others b = 0 -> b = "").
  { intros [|c b] A Z; [reflexivity|]. exfalso. destruct A as (A & _). rewrite others_char in Z; [discriminate|].
    intros ->. destruct A as [K|[K|[K|K]]]; discriminate. }
  inversion H as [|b t' m' B N W E1 E2|b t' m' c rest ws B N W C R E1 E2]; subst.
  - rewrite others_app in E. destruct (others_word _ _ W) as (L & K). assert (b = "") as -> by (apply OB; [exact B|lia]). cbn. apply K. cbn in E. lia.
  - exfalso. rewrite !others_app, others_char in E by (intros ->; destruct C as [K|[K|[K|K]]]; discriminate).
    destruct (others_word _ _ W) as (L & _). lia.
Qed.
Lemma body_harmless : forall n q t, length q <= n -> inner q t -> dq_body t t -> quoted_harmless q.
Proof.
  induction n as [|n IH]; intros q t L A B.
  { destruct q; [constructor|cbn in L; lia]. }
  inversion A as [|c l m A' E|c l m A' E]; subst; [constructor| |]; cbn in L.
  - inversion B as [|c' t' m' N1 N2 B' E1 E2|c' t' m' P B' E1 E2|c' t' m' N1 N2 B' E1 E2]; subst.
    + apply qh_char. apply (IH l m); auto. lia.
    + exfalso. apply others_body in B' as (L' & _). cbn in L'. lia.
    + apply qh_char. inversion A' as [|c0 l0 m0 A0 E|c0 l0 m0 A0 E]; subst; cbn in L.
      * apply qh_char. apply (IH l0 t'); auto. lia.
      * apply qh_escape; auto. apply (IH l0 t'); auto. lia.
  - inversion B as [|c' t' m' N1 N2 B' E1 E2|c' t' m' P B' E1 E2|c' t' m' N1 N2 B' E1 E2]; subst.
    + apply qh_escape; auto. apply (IH l m); auto. lia.
    + exfalso. apply others_body in B' as (L' & _). cbn in L'. lia.
    + inversion A' as [|c0 l0 m0 A0 E|c0 l0 m0 A0 E]; subst; cbn in L.
      * apply qh_backslash_char; auto. apply (IH l0 t'); auto. lia.
      * apply qh_backslash_escape; auto. apply (IH l0 t'); auto. lia.
Qed.
Lemma append_split_dq a b x y : all_chars (fun c => c <> DQ) a -> all_chars (fun c => c <> DQ) b ->
  a +++ String DQ x = b +++ String DQ y -> a = b /\ x = y.
Proof.
  revert b. induction a as [|c a IH]; intros [|d b] A B E; cbn in *.
  - injection E as E. auto.
  - injection E as E1 E2. subst d. now destruct B.
  - injection E as E1 E2. subst c. now destruct A.
  - injection E as E1 E2. subst d. destruct (IH b) as (-> & ->); tauto.
Qed.
Lemma clean_harmless l t : shown l t -> forall m, denotes_word l m -> clean t m -> escapes_harmless l.
Proof.
  induction 1 as [|c l t H IH|c l t H IH|q t' l t A H IH]; intros m D C.
  - constructor.
  - inversion D as [|c' ? m' D' E| |]; subst. apply code_inj in E as ->. apply eh_char. pose proof (clean_no_dq _ _ C) as (ND & _).
    inversion C as [|c' t0 m0 P C' E1 E2|body t0 m0 B C' E1 E2]; subst; [eauto|congruence].
  - inversion D as [| |c' ? m' D' E|]; subst. apply code_inj in E as ->. pose proof (clean_no_dq _ _ C) as (ND & _).
    inversion C as [|c' t0 m0 P C' E1 E2|body t0 m0 B C' E1 E2]; subst; [|congruence]. apply eh_escape; eauto.
  - inversion D as [| | |? t'' ? m' A' D']; subst. pose proof (inner_fun _ _ A _ A') as <-. pose proof (clean_no_dq _ _ C) as ND. apply all_app in ND as (ND & _).
    inversion C as [|c' t0 m0 P C' E1 E2|body t0 m0 B C' E1 E2]; subst; [destruct P as (_ & _ & P & _); congruence|].
    apply append_split_dq in E1 as (-> & ->); [|eapply body_no_dq; [exact B|reflexivity]|exact ND].
    assert (m0 = m') as ->.
    { clear - E2. induction t'; cbn in E2; [exact E2|]. injection E2. auto. }
    apply eh_quoted; [|eauto]. eapply body_harmless; [|exact A|exact B]. auto.
Qed.
Theorem C64_read_iff : forall l m, l <> [] -> denotes_word l m -> from_shell l ->
  exists t, format_arg_chars l = Ok (lit t) /\ (shlex_split t = Ok [m] <-> escapes_harmless l).
Proof.
  intros l m N D F. destruct (word_shown l m D) as (t & S). exists t. split; [now apply format_shown|]. split.
  - intros H. apply (clean_harmless l t S m D). apply one_word; [exact H|]. symmetry. eapply others_shown; eassumption.
  - intros E. destruct (word_read l m D F E t S) as (W & T). apply tokenises_lex. apply (tk_last "" t m); [exact I|auto|exact W].
Qed.
Print Assumptions C64_read_iff.
(** In double quotes, an escaped backslash before a letter survives, before another one it does not. *)
Example C64_read_iff_case :
  escapes_harmless [AQ [AE (code BS); AC (code "n")]] /\ format_arg_chars [AQ [AE 92; AC 110]] = Ok (lit """\n""") /\ shlex_split """\n""" = Ok ["\n"] /\
  ~ escapes_harmless [AQ [AE (code BS); AE (code BS)]] /\ shlex_split """\\""" = Ok ["\"].
Proof.
  split; [repeat constructor; try discriminate; apply qh_backslash_char; try discriminate; constructor|]. split; [reflexivity|]. split; [reflexivity|]. split; [|reflexivity].
  intros H. inversion H as [| | |q l Q _]; subst. inversion Q as [| |c l A B Q' E|c l A B Q' E|c l A B Q' E]; subst.
  - apply code_inj in E. congruence.
  - apply code_inj in E. congruence.
Qed.
(** Escapes leave no trace in the text. *)
Theorem C64_escape_lost : forall l1 l2 z, format_arg_chars (l1 ++ AE z :: l2) = format_arg_chars (l1 ++ AC z :: l2).
Proof. intros l1 l2 z. rewrite !C64_append, !format_cons. reflexivity. Qed.
Print Assumptions C64_escape_lost.
(** Refuted: a word with an escaped blank is read back as two words, and with an escaped quote not at all. *)
Theorem C64_read_back_refuted : exists l1 l2 t1 t2, from_shell l1 /\ denotes_word l1 "a b" /\ format_arg_chars l1 = Ok (lit t1) /\ shlex_split t1 = Ok ["a"; "b"] /\
  from_shell l2 /\ denotes_word l2 "it's" /\ format_arg_chars l2 = Ok (lit t2) /\ shlex_split t2 = Raise ValueError.
Proof.
  exists [AC (code "a"); AE (code " "); AC (code "b")], [AC (code "i"); AC (code "t"); AE (code "'"); AC (code "s")], "a b", "it's".
  repeat split; repeat constructor; unfold blank; intuition discriminate.
Qed.
Print Assumptions C64_read_back_refuted.
