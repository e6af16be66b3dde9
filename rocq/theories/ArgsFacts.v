(** * Facts about the man page scraper *)
Require Import Verif.PyBase Verif.JsonData Verif.SpecShlex Verif.ShlexFacts Verif.ArgsToJson Verif.SpecArgs.
From Coq Require Import Lia Permutation.

(** ** Characters *)
Lemma py_space_spec c : py_space c = true <-> white c.
Proof.
  unfold py_space, white, code_in. generalize (nat_of_ascii c) as n. intros n. cbn [In].
  rewrite !orb_true_iff, !andb_true_iff, !Nat.leb_le, !Nat.eqb_eq. lia.
Qed.
Lemma py_space_false c : py_space c = false <-> ~ white c.
Proof. rewrite <- py_space_spec. now destruct (py_space c). Qed.
Lemma is_lower_spec c : is_lower c = true <-> lower c.
Proof. unfold is_lower, lower. rewrite andb_true_iff, !Nat.leb_le. reflexivity. Qed.
Lemma is_upper_spec c : is_upper c = true <-> upper c.
Proof. unfold is_upper, upper. rewrite andb_true_iff, !Nat.leb_le. reflexivity. Qed.
Lemma all_b_spec p P s : (forall c, p c = true <-> P c) -> all_b p s = true <-> all_chars P s.
Proof. intros H. induction s as [|c s IH]; cbn; [tauto|]. now rewrite andb_true_iff, H, IH. Qed.
Lemma all_chars_imp (P Q : ascii -> Prop) s : (forall c, P c -> Q c) -> all_chars P s -> all_chars Q s.
Proof. intros H. induction s as [|c s IH]; cbn; intuition. Qed.
Lemma sapp_eq_nil a b : a +++ b = "" -> a = "" /\ b = "".
Proof. destruct a; cbn; [auto|discriminate]. Qed.
Lemma last_char s : s = "" \/ exists a c, s = a +++ one_char c.
Proof.
  induction s as [|c s [->|(a & d & ->)]]; [auto| |].
  - right. now exists "", c.
  - right. now exists (String c a), d.
Qed.

Lemma remove_chars_spec p P : (forall c, p c = true <-> P c) -> forall s t, without P s t <-> remove_chars p s = t.
Proof.
  intros H s. induction s as [|c s IH]; intros t; cbn.
  - split; [now inversion 1|]. intros <-. constructor.
  - destruct (p c) eqn:E.
    + apply H in E. rewrite <- IH. split; [inversion 1; subst; tauto|]. now constructor.
    + assert (N : ~ P c) by (rewrite <- H; congruence). split.
      * inversion 1; subst; [tauto|]. f_equal. now apply IH.
      * intros <-. constructor; [exact N|]. now apply IH.
Qed.

(** ** Phrases *)
Lemma no_separator_tail c s : no_separator (String c s) -> no_separator s.
Proof. intros H a b E. apply (H (String c a) b). now rewrite E. Qed.
Lemma no_separator_cons c s : no_separator s -> (c = ","%char -> forall r, s <> String " " r) -> no_separator (String c s).
Proof.
  intros H N [|d a] b E; cbn in E.
  - injection E as -> ->. now apply (N eq_refl b).
  - injection E as -> ->. now apply (H a b).
Qed.
Lemma no_separator_nil : no_separator "".
Proof. intros [|c a] b; discriminate. Qed.
Lemma split_comma_step c s : (c = ","%char -> forall r, s <> String " " r) -> split_comma (String c s) = push c (split_comma s).
Proof.
  intros H. destruct s as [|d s]; [reflexivity|]. cbn [split_comma].
  destruct (Ascii.eqb_spec c ","); [|reflexivity]. destruct (Ascii.eqb_spec d " "); [|reflexivity].
  subst. exfalso. now apply (H eq_refl s).
Qed.
Lemma no_separator_head c s : no_separator (String c s) -> c = ","%char -> forall r, s <> String " " r.
Proof. intros H -> r ->. now apply (H "" r). Qed.
Lemma split_comma_one p : no_separator p -> split_comma p = [p].
Proof.
  induction p as [|c p IH]; intros H; [reflexivity|]. rewrite split_comma_step by (now apply no_separator_head).
  now rewrite (IH (no_separator_tail _ _ H)).
Qed.
Lemma split_comma_more p s : no_separator p -> split_comma (p +++ ", " +++ s) = p :: split_comma s.
Proof.
  induction p as [|c p IH]; intros H; [reflexivity|].
  change (String c p +++ ", " +++ s) with (String c (p +++ ", " +++ s)). rewrite split_comma_step.
  - now rewrite (IH (no_separator_tail _ _ H)).
  - intros -> r E. destruct p as [|d p]; cbn in E; [discriminate|]. injection E as -> _.
    now apply (H "" p).
Qed.
Lemma phrases_push c s ps : (c = ","%char -> forall r, s <> String " " r) -> phrases s ps -> phrases (String c s) (push c ps).
Proof.
  intros N H. destruct H as [p S|p s ps S H]; cbn [push].
  - constructor. now apply no_separator_cons.
  - apply (ph_more (String c p)); [|exact H]. apply no_separator_cons; [exact S|]. intros E r ->. now apply (N E (r +++ ", " +++ s)).
Qed.
Lemma split_comma_phrases s : phrases s (split_comma s).
Proof.
  assert (H : forall n s, String.length s <= n -> phrases s (split_comma s)); [|now apply (H (String.length s))].
  clear s. induction n as [|n IH]; intros s L.
  - destruct s; cbn in L; [|lia]. constructor. exact no_separator_nil.
  - destruct s as [|c s]; [constructor; exact no_separator_nil|]. cbn in L.
    destruct s as [|d s]; [apply (phrases_push c "" [""]); [discriminate|constructor; exact no_separator_nil]|].
    destruct (Ascii.eqb_spec c ","); [destruct (Ascii.eqb_spec d " ")|].
    + subst. apply (ph_more "" s); [exact no_separator_nil|]. apply IH. cbn in L. lia.
    + rewrite split_comma_step by (intros _ r E; congruence). apply phrases_push; [intros _ r E; congruence|]. apply IH. cbn in *. lia.
    + rewrite split_comma_step by congruence. apply phrases_push; [congruence|]. apply IH. cbn in *. lia.
Qed.
Lemma split_comma_spec s ps : phrases s ps <-> split_comma s = ps.
Proof.
  split; [|intros <-; apply split_comma_phrases]. intros H. induction H as [p S|p s ps S H IH].
  - now apply split_comma_one.
  - now rewrite split_comma_more, IH.
Qed.

(** ** Stripping *)
Lemma lstrip_white b s : all_chars white b -> lstrip (b +++ s) = lstrip s.
Proof. induction b as [|c b IH]; cbn; [reflexivity|]. intros [W B]. apply py_space_spec in W. rewrite W. auto. Qed.
Lemma lstrip_decompose s : exists b, all_chars white b /\ s = b +++ lstrip s /\ forall c r, lstrip s = String c r -> ~ white c.
Proof.
  induction s as [|c s (b & B & E & F)]; cbn.
  - exists "". repeat split. discriminate.
  - destruct (py_space c) eqn:W.
    + exists (String c b). cbn. apply py_space_spec in W. repeat split; auto. now rewrite <- E.
    + exists "". repeat split. intros d r Q. injection Q as <- _. now apply py_space_false.
Qed.
Lemma rstrip_white b : all_chars white b -> rstrip b = "".
Proof. induction b as [|c b IH]; cbn; [reflexivity|]. intros [W B]. rewrite (IH B). apply py_space_spec in W. now rewrite W. Qed.
Lemma rstrip_app s b : all_chars white b -> rstrip (s +++ b) = rstrip s.
Proof. intros B. induction s as [|c s IH]; cbn; [now apply rstrip_white|]. now rewrite IH. Qed.
Lemma rstrip_decompose s : exists b, all_chars white b /\ s = rstrip s +++ b /\ forall c r, rstrip s = r +++ one_char c -> ~ white c.
Proof.
  induction s as [|c s (b & B & E & F)]; cbn.
  - exists "". repeat split. intros c r Q. symmetry in Q. apply sapp_eq_nil in Q as [_ Q]. discriminate Q.
  - destruct (rstrip s) as [|d r] eqn:R.
    + destruct (py_space c) eqn:W.
      * exists (String c b). cbn in *. apply py_space_spec in W. split; [now split|]. split; [congruence|].
        intros d r Q. symmetry in Q. apply sapp_eq_nil in Q as [_ Q]. discriminate Q.
      * exists b. cbn in E. split; [exact B|]. split; [cbn; congruence|]. intros d r Q. destruct r as [|d' r]; cbn in Q.
        -- injection Q as <-. now apply py_space_false.
        -- injection Q as _ Q. symmetry in Q. apply sapp_eq_nil in Q as [_ Q]. discriminate Q.
    + exists b. split; [exact B|]. split; [cbn; cbn in E; congruence|]. intros e [|e' q] Q; cbn in Q; [discriminate|].
      injection Q as <- Q. now apply (F e q).
Qed.
Lemma rstrip_id s : (forall c r, s = r +++ one_char c -> ~ white c) -> rstrip s = s.
Proof.
  intros H. destruct (rstrip_decompose s) as (b & B & E & _). destruct (last_char b) as [->|(a & c & ->)].
  - rewrite sapp_nil_r in E. congruence.
  - exfalso. apply (H c (rstrip s +++ a)); [now rewrite sapp_assoc|]. apply all_chars_app in B as [_ [W _]]. exact W.
Qed.
Lemma strip_spec p t : trimmed p t <-> strip p = t.
Proof.
  split.
  - intros (b1 & b2 & B1 & B2 & -> & F & L). unfold strip. rewrite lstrip_white by exact B1. destruct t as [|c t].
    + cbn. rewrite <- (sapp_nil_r b2), lstrip_white by exact B2. reflexivity.
    + cbn. rewrite (proj2 (py_space_false c)) by (now apply (F c t)).
      change (String c (t +++ b2)) with (String c t +++ b2). rewrite rstrip_app by exact B2. now apply rstrip_id.
  - intros <-. destruct (lstrip_decompose p) as (b1 & B1 & E1 & F). destruct (rstrip_decompose (lstrip p)) as (b2 & B2 & E2 & L).
    exists b1, b2. unfold strip. do 2 (split; [assumption|]). split; [now rewrite <- E2|]. split; [|exact L].
    intros c s Q. rewrite Q in E2. cbn in E2. now apply (F c (s +++ b2)).
Qed.

(** ** Parts *)
Definition no_equal (s : string) : bool := all_b (fun c => negb (Ascii.eqb c "=")) s.
Lemma no_equal_spec s : no_equal s = true <-> all_chars (fun c => c <> "="%char) s.
Proof. apply all_b_spec. intros c. rewrite negb_true_iff, Ascii.eqb_neq. reflexivity. Qed.
Lemma split_equal_one n : all_chars (fun c => c <> "="%char) n -> split_equal n = [n].
Proof.
  induction n as [|c n IH]; cbn; [reflexivity|]. intros [C N]. rewrite (IH N). now rewrite (proj2 (Ascii.eqb_neq _ _) C).
Qed.
Lemma split_equal_more n rest : all_chars (fun c => c <> "="%char) n ->
  split_equal (n +++ String "=" rest) = n :: split_equal rest.
Proof.
  induction n as [|c n IH]; cbn; [reflexivity|]. intros [C N]. rewrite (IH N). now rewrite (proj2 (Ascii.eqb_neq _ _) C).
Qed.
Lemma find_equal s : no_equal s = false -> exists n rest, s = n +++ String "=" rest /\ all_chars (fun c => c <> "="%char) n.
Proof.
  induction s as [|c s IH]; cbn; [discriminate|]. destruct (Ascii.eqb_spec c "=").
  - intros _. subst c. exists "", s. now split.
  - cbn. intros H. destruct (IH H) as (n' & rest & -> & N). exists (String c n'), rest. cbn. auto.
Qed.
Lemma first_equal s : exists x l, split_equal s = x :: l /\ forall y, first_part (eq "="%char) s y <-> y = x.
Proof.
  assert (H : forall s x l, split_equal s = x :: l -> forall y, first_part (eq "="%char) s y -> y = x).
  { clear s. intros s x l E y [Y [->|(c & rest & <- & ->)]].
    - rewrite split_equal_one in E; [congruence|]. eapply all_chars_imp; [|exact Y]. intros c Q R. congruence.
    - rewrite split_equal_more in E; [congruence|]. eapply all_chars_imp; [|exact Y]. intros c Q R. congruence. }
  destruct (no_equal s) eqn:N.
  - apply no_equal_spec in N. rewrite (split_equal_one _ N). exists s, []. split; [reflexivity|]. intros y. split.
    + now apply (H s s []), split_equal_one.
    + intros ->. split; [|auto]. eapply all_chars_imp; [|exact N]. intros c Q R. congruence.
  - destruct (find_equal _ N) as (n & rest & E & M). subst s. rewrite (split_equal_more _ _ M). eexists _, _. split; [reflexivity|].
    intros y. split.
    + apply (H _ n (split_equal rest)). now apply split_equal_more.
    + intros ->. split; [|right; exists "="%char, rest; auto]. eapply all_chars_imp; [|exact M]. intros c Q R. congruence.
Qed.

Lemma split_space_one n : all_chars (fun c => ~ white c) n -> forall i, split_space i n = [n].
Proof.
  induction n as [|c n IH]; cbn; [reflexivity|]. intros [C N] i. apply py_space_false in C. now rewrite C, (IH N).
Qed.
Lemma split_space_inside b s : all_chars white b -> split_space true (b +++ s) = split_space true s.
Proof. induction b as [|c b IH]; cbn; [reflexivity|]. intros [W B]. apply py_space_spec in W. rewrite W. auto. Qed.
Lemma split_space_more n : all_chars (fun c => ~ white c) n -> forall c s i, white c -> (n <> "" \/ i = false) ->
  split_space i (n +++ String c s) = n :: split_space true s.
Proof.
  induction n as [|d n IH]; cbn; intros N c s i W I.
  - apply py_space_spec in W. rewrite W. destruct I as [I| ->]; [congruence|reflexivity].
  - destruct N as [D N]. apply py_space_false in D. rewrite D. now rewrite (IH N c s false W (or_intror eq_refl)).
Qed.
Lemma find_white s : all_chars (fun c => ~ white c) s \/
  exists n c rest, s = n +++ String c rest /\ all_chars (fun c => ~ white c) n /\ white c.
Proof.
  induction s as [|c s IH]; [left; exact I|]. destruct (py_space c) eqn:W.
  - right. exists "", c, s. apply py_space_spec in W. cbn. auto.
  - apply py_space_false in W. destruct IH as [A|(n & d & rest & -> & N & D)]; [left; now split|].
    right. exists (String c n), d, rest. cbn. auto.
Qed.
Lemma first_white d s : ~ white d -> exists x l, split_space true (String d s) = x :: l /\
  forall y, first_part white (String d s) y <-> y = x.
Proof.
  intros D.
  assert (H : forall x l, split_space true (String d s) = x :: l -> forall y, first_part white (String d s) y -> y = x).
  { intros x l E y [Y [Q|(c & rest & W & Q)]].
    - subst y. rewrite split_space_one in E by exact Y. congruence.
    - rewrite Q, split_space_more in E; auto; [congruence|]. left. intros ->. cbn in Q. congruence. }
  destruct (find_white (String d s)) as [A|(n & c & rest & E & N & W)].
  - exists (String d s), []. split; [now apply split_space_one|]. intros y. split.
    + apply (H _ []). now apply split_space_one.
    + intros ->. split; auto.
  - assert (M : n <> "") by (intros ->; cbn in E; congruence). exists n, (split_space true rest).
    assert (F : split_space true (String d s) = n :: split_space true rest) by (rewrite E; apply split_space_more; auto).
    split; [exact F|]. intros y. split; [now apply (H n _ F)|]. intros ->. split; [exact N|]. right. eauto.
Qed.

Definition phrase_parts (phrase : string) : list string :=
  if negb (no_equal phrase) then split_equal phrase else split_space false phrase.
Lemma not_all_white s : (forall c r, s = r +++ one_char c -> ~ white c) -> s <> "" ->
  exists b d rest, s = b +++ String d rest /\ all_chars white b /\ ~ white d.
Proof.
  intros L N. destruct (lstrip_decompose s) as (b & B & E & F). destruct (lstrip s) as [|d rest] eqn:Q.
  - rewrite sapp_nil_r in E. subst b. destruct (last_char s) as [->|(a & c & ->)]; [congruence|].
    exfalso. apply (L c a eq_refl). apply all_chars_app in B as [_ [W _]]. exact W.
  - exists b, d, rest. split; [exact E|]. split; [exact B|]. now apply (F d rest).
Qed.
Lemma last_suffix a c b : (forall d r, a +++ String c b = r +++ one_char d -> ~ white d) -> white c ->
  (forall d r, b = r +++ one_char d -> ~ white d) /\ b <> "".
Proof.
  intros L W. split.
  - intros d r ->. apply (L d (a +++ String c r)). now rewrite sapp_assoc.
  - intros ->. now apply (L c a).
Qed.
Lemma parts_spec t n second : (forall c r, t = r +++ one_char c -> ~ white c) ->
  parts t n second <-> exists rest, phrase_parts t = n :: rest /\ second = hd_error rest.
Proof.
  intros L. unfold phrase_parts. split.
  - intros H. destruct H as [n rest a N F|n c b d rest a E N W B D F|n E N].
    + replace (no_equal (n +++ String "=" rest)) with false.
      2:{ symmetry. destruct (no_equal _) eqn:Q; [|reflexivity]. apply no_equal_spec, all_chars_app in Q as [_ [Q _]]. congruence. }
      cbn. rewrite (split_equal_more _ _ N). destruct (first_equal rest) as (x & l & -> & U). eexists. split; [reflexivity|].
      apply U in F. subst a. reflexivity.
    + apply no_equal_spec in E. rewrite E. cbn.
      replace (n +++ String c (b +++ String d rest)) with (n +++ String c b +++ String d rest) by reflexivity.
      cbn. rewrite split_space_more; auto. rewrite split_space_inside by exact B.
      destruct (first_white d rest D) as (x & l & -> & U). eexists. split; [reflexivity|]. apply U in F. subst a. reflexivity.
    + apply no_equal_spec in E. rewrite E. cbn. rewrite (split_space_one _ N). eexists. split; reflexivity.
  - intros (rest & E & ->). destruct (no_equal t) eqn:Q; cbn in E.
    + apply no_equal_spec in Q. destruct (find_white t) as [A|(m & c & s & -> & N & W)].
      * rewrite (split_space_one _ A) in E. injection E as <- <-. now constructor.
      * destruct (last_suffix _ _ _ L W) as [L' N']. destruct (not_all_white _ L' N') as (b & d & r & -> & B & D).
        rewrite split_space_more in E; auto. rewrite split_space_inside in E by exact B.
        destruct (first_white d r D) as (x & l & Q' & U). rewrite Q' in E. injection E as <- <-.
        change (m +++ String c (b +++ String d r)) with (m +++ (String c b) +++ String d r) in *.
        apply pt_space; auto. now apply U.
    + destruct (find_equal _ Q) as (m & s & -> & N). rewrite (split_equal_more _ _ N) in E. injection E as <- <-.
      destruct (first_equal s) as (x & l & -> & U). constructor; [exact N|]. now apply U.
Qed.

(** ** Spellings *)
Definition no_newline : string -> Prop := all_chars (fun c => c <> "010"%char).
Lemma wfn_id s : no_newline s -> without_final_newline s = s.
Proof.
  induction s as [|c s IH]; [reflexivity|]. intros [C S]. cbn in *. destruct s as [|d s].
  - now rewrite (proj2 (Ascii.eqb_neq _ _) C).
  - now rewrite (IH S).
Qed.
Lemma matches_id p s : no_newline s -> matches p s = p s.
Proof. intros N. unfold matches. rewrite (wfn_id _ N). now destruct (p s). Qed.
Lemma skip_dashes_app ds w : all_chars (eq dash) ds -> skip_dashes (ds +++ w) = skip_dashes w.
Proof. induction ds as [|c ds IH]; cbn; [reflexivity|]. intros [<- D]. cbn. auto. Qed.
Lemma skip_dashes_decompose s : exists ds, all_chars (eq dash) ds /\ s = ds +++ skip_dashes s.
Proof.
  induction s as [|c s (ds & D & E)]; [now exists ""|]. cbn. destruct (Ascii.eqb_spec c "-").
  - subst c. exists (String dash ds). cbn. split; [auto|]. now rewrite <- E.
  - now exists "".
Qed.
Lemma lower_not_dash c : lower c -> Ascii.eqb c "-" = false.
Proof. intros L. apply Ascii.eqb_neq. intros ->. unfold lower in L. cbn in L. lia. Qed.
Lemma upper_not_dash c : upper c -> Ascii.eqb c "-" = false.
Proof. intros L. apply Ascii.eqb_neq. intros ->. unfold upper in L. cbn in L. lia. Qed.
Lemma spelling_spec s : spelling s <-> lower_form s || upper_form s = true.
Proof.
  unfold lower_form, upper_form. split.
  - intros (ds & w & -> & D & H). cbn. rewrite (skip_dashes_app _ _ D). destruct H as [(c & -> & U)|(c & w' & -> & L & A)]; cbn.
    + rewrite (upper_not_dash _ U). rewrite (proj2 (is_upper_spec _) U). apply orb_true_r.
    + rewrite (lower_not_dash _ L), (proj2 (is_lower_spec _) L). cbn.
      replace (all_b _ w') with true; [reflexivity|]. symmetry. revert A. apply all_b_spec.
      intros d. rewrite orb_true_iff, is_lower_spec, Ascii.eqb_eq. reflexivity.
  - intros H. destruct s as [|c s]; [discriminate|]. cbn [starts_with_dash] in H.
    destruct (Ascii.eqb_spec c "-"); [|discriminate]. subst c. cbn [skip_dashes] in H. rewrite Ascii.eqb_refl in H. cbn [andb] in H.
    destruct (skip_dashes_decompose s) as (ds & D & E). destruct (skip_dashes s) as [|c w]; [discriminate|].
    exists ds, (String c w). rewrite E at 1. split; [reflexivity|]. split; [exact D|].
    apply orb_true_iff in H as [H|H].
    + right. exists c, w. apply andb_true_iff in H as [H1 H2]. apply is_lower_spec in H1. split; [reflexivity|]. split; [exact H1|].
      revert H2. apply all_b_spec. intros d. rewrite orb_true_iff, is_lower_spec, Ascii.eqb_eq. reflexivity.
    + left. exists c. destruct w; [|discriminate]. apply is_upper_spec in H. now split.
Qed.
Lemma argument_spec a : argument a <-> argument_form a = true.
Proof.
  unfold argument, argument_form. rewrite andb_true_iff, negb_true_iff, String.eqb_neq.
  now rewrite (all_b_spec is_upper upper a is_upper_spec).
Qed.

(** ** What a phrase announces *)
Definition form_of (p : string) : option xbd_arg :=
  match phrase_parts (strip p) with
  | [] => None
  | n :: rest => if lower_form n || upper_form n then
                   Some (match rest with a :: _ => if argument_form a then XOption n a else XFlag n | [] => XFlag n end)
                 else None
  end.
Lemma announces_spec p x : announces p x <-> form_of p = Some x.
Proof.
  assert (T : trimmed p (strip p)) by now apply strip_spec.
  assert (L : forall c r, strip p = r +++ one_char c -> ~ white c) by (destruct T as (? & ? & _ & _ & _ & _ & L); exact L).
  unfold form_of. split.
  - intros H. destruct H as [t n second Tr P S N|t n a Tr P S A]; apply strip_spec in Tr; subst t;
      apply (parts_spec _ _ _ L) in P as (rest & -> & Q); apply spelling_spec in S; rewrite S.
    + f_equal. destruct rest as [|a rest]; [reflexivity|]. cbn in Q. specialize (N a Q). rewrite argument_spec in N.
      now destruct (argument_form a).
    + destruct rest as [|b rest]; cbn in Q; [discriminate|]. injection Q as <-. apply argument_spec in A. now rewrite A.
  - destruct (phrase_parts (strip p)) as [|n rest] eqn:E; [discriminate|].
    destruct (lower_form n || upper_form n) eqn:S; [|discriminate]. apply spelling_spec in S. intros H. injection H as <-.
    assert (P : parts (strip p) n (hd_error rest)) by (apply (parts_spec _ _ _ L); eauto).
    destruct rest as [|a rest]; [eapply an_flag; eauto; discriminate|]. destruct (argument_form a) eqn:A.
    + apply (an_option p (strip p)); auto. now apply argument_spec.
    + eapply an_flag; eauto. cbn. intros b Q. injection Q as <-. rewrite argument_spec. congruence.
Qed.
Definition undash (n : string) : string := remove_chars (fun c => Ascii.eqb c "-") n.
Lemma undash_spec n b : without (eq dash) n b <-> undash n = b.
Proof. apply remove_chars_spec. intros c. rewrite Ascii.eqb_eq. unfold dash. split; congruence. Qed.

(** Parts of a phrase without newline have none. *)
Lemma no_newline_app a b : no_newline (a +++ b) <-> no_newline a /\ no_newline b.
Proof. apply all_chars_app. Qed.
Lemma push_newline c l : c <> "010"%char -> Forall no_newline l -> Forall no_newline (push c l).
Proof. intros C H. destruct H; cbn; constructor; auto; cbn; auto. Qed.
Lemma parts_no_newline t : no_newline t -> Forall no_newline (phrase_parts t).
Proof.
  intros H. unfold phrase_parts. destruct (negb (no_equal t)).
  - induction t as [|c t IH]; [repeat constructor|]. destruct H as [C H]. cbn. destruct (Ascii.eqb c "="); auto using push_newline.
    constructor; [exact I|auto].
  - generalize false as i. induction t as [|c t IH]; [repeat constructor|]. destruct H as [C H]. intros i. cbn.
    destruct (py_space c); [|auto using push_newline]. destruct i; auto. constructor; [exact I|auto].
Qed.
Lemma match_phrase_spec p acc past : no_newline (strip p) ->
  match_phrase p acc past =
  match form_of p with
  | None => (acc, past)
  | Some x => if mem (undash (xname x)) past then (acc, past) else (acc ++ [x], undash (xname x) :: past)
  end.
Proof.
  intros N. unfold match_phrase, form_of. fold (no_equal (strip p)). fold (phrase_parts (strip p)).
  pose proof (parts_no_newline _ N) as F. destruct (phrase_parts (strip p)) as [|n rest]; [reflexivity|].
  apply Forall_cons_iff in F as [Fn Fr]. rewrite !(matches_id _ _ Fn). fold (undash n).
  destruct (lower_form n || upper_form n); [|reflexivity].
  destruct rest as [|a rest]; cbn; [reflexivity|]. apply Forall_cons_iff in Fr as [Fa _]. rewrite (matches_id _ _ Fa).
  destruct (argument_form a); reflexivity.
Qed.

(** ** Lines of text *)
Lemma text_line_cons c s : text_line (String c s) <-> (c <> "010"%char /\ text_line s) \/ (c = "010"%char /\ s = "").
Proof.
  split.
  - intros ([|d b] & B & [E|E]); cbn in E; try discriminate; injection E; intros; subst.
    + now right.
    + left. destruct B as [D B]. split; [exact D|]. exists b. auto.
    + left. destruct B as [D B]. split; [exact D|]. exists b. auto.
  - intros [(C & b & B & E)|[-> ->]].
    + exists (String c b). split; [now split|]. destruct E as [-> | ->]; auto.
    + exists "". split; [exact I|now right].
Qed.
Lemma text_line_nil : text_line "".
Proof. exists "". split; [exact I|auto]. Qed.
Lemma text_line_app a b : text_line (a +++ b) -> text_line a /\ text_line b.
Proof.
  induction a as [|c a IH]; cbn; [split; [apply text_line_nil|assumption]|].
  rewrite text_line_cons. intros [[C H]|[-> H]].
  - destruct (IH H). split; [|assumption]. apply text_line_cons. auto.
  - apply sapp_eq_nil in H as [-> ->]. split; [|apply text_line_nil]. apply text_line_cons. auto.
Qed.
Lemma text_line_remove p s : text_line s -> text_line (remove_chars p s).
Proof.
  induction s as [|c s IH]; cbn; [auto|]. rewrite text_line_cons. intros [[C H]|[-> ->]].
  - destruct (p c); [auto|]. apply text_line_cons. auto.
  - destruct (p "010"%char); cbn; [apply text_line_nil|]. apply text_line_cons. auto.
Qed.
Lemma text_line_phrases s ps : phrases s ps -> text_line s -> Forall text_line ps.
Proof.
  intros H. induction H as [p S|p s ps S H IH]; intros T; [auto|].
  apply text_line_app in T as [T1 T2]. apply text_line_app in T2 as [_ T2]. auto.
Qed.
Lemma text_line_strip p : text_line p -> no_newline (strip p).
Proof.
  intros T. assert (Tr : trimmed p (strip p)) by now apply strip_spec. destruct Tr as (b1 & b2 & _ & _ & E & _ & L). rewrite E in T.
  apply text_line_app in T as [_ T]. apply text_line_app in T as [(b & B & [-> | Q]) _]; [exact B|].
  exfalso. apply (L _ _ Q). apply py_space_spec. reflexivity.
Qed.

(** ** Lines *)
Definition forms (ps : list string) : list xbd_arg :=
  flat_map (fun p => match form_of p with Some x => [x] | None => [] end) ps.
Lemma reads_spec ps xs : reads ps xs <-> forms ps = xs.
Proof.
  split.
  - intros H. induction H as [|p ps xs N H IH|p ps x xs A H IH]; cbn; [reflexivity| |].
    + destruct (form_of p) as [x|] eqn:E; [|exact IH]. apply announces_spec in E. exfalso. now apply (N x).
    + apply announces_spec in A. rewrite A. cbn. now f_equal.
  - intros <-. induction ps as [|p ps IH]; cbn; [constructor|]. destruct (form_of p) as [x|] eqn:E; cbn.
    + apply rd_take; [now apply announces_spec|exact IH].
    + apply rd_skip; [|exact IH]. intros x A. apply announces_spec in A. congruence.
Qed.
Definition line_forms (l : string) : list xbd_arg :=
  forms (split_comma (remove_chars (fun c => Ascii.eqb c "[" || Ascii.eqb c "]") l)).
Lemma announced_spec l xs : announced l xs <-> line_forms l = xs.
Proof.
  assert (R : forall s, without (fun c => c = "["%char \/ c = "]"%char) l s <-> remove_chars (fun c => Ascii.eqb c "[" || Ascii.eqb c "]") l = s).
  { apply remove_chars_spec. intros c. now rewrite orb_true_iff, !Ascii.eqb_eq. }
  unfold announced, line_forms. split.
  - intros (s & ps & W & P & F). apply R in W. apply split_comma_spec in P. apply reads_spec in F. congruence.
  - intros <-. eexists _, _. split; [now apply R|]. split; [now apply split_comma_spec|]. now apply reads_spec.
Qed.
Lemma mem_In x l : mem x l = true <-> In x l.
Proof.
  unfold mem. rewrite existsb_exists. split; [intros (y & I & E); apply String.eqb_eq in E; now subst|].
  intros I. exists x. split; [exact I|apply String.eqb_refl].
Qed.
Fixpoint fresh_of (past : list string) (xs : list xbd_arg) : list xbd_arg * list string :=
  match xs with
  | [] => ([], past)
  | x :: xs' => if mem (undash (xname x)) past then fresh_of past xs'
                else let (ys, past') := fresh_of (undash (xname x) :: past) xs' in (x :: ys, past')
  end.
Lemma fresh_spec past xs ys past' : fresh past xs ys past' <-> fresh_of past xs = (ys, past').
Proof.
  split.
  - intros H. induction H as [past|past x b xs ys past' W I H IH|past x b xs ys past' W I H IH]; cbn; [reflexivity| |];
      apply undash_spec in W; subst b.
    + apply mem_In in I. now rewrite I.
    + destruct (mem (undash (xname x)) past) eqn:E; [apply mem_In in E; tauto|]. now rewrite IH.
  - revert past ys past'. induction xs as [|x xs IH]; cbn; intros past ys past' H.
    + injection H as <- <-. constructor.
    + destruct (mem (undash (xname x)) past) eqn:E.
      * apply (fr_old _ _ (undash (xname x))); [now apply undash_spec|now apply mem_In|auto].
      * destruct (fresh_of (undash (xname x) :: past) xs) as [zs q] eqn:F. injection H as <- <-.
        apply (fr_new _ _ (undash (xname x))); [now apply undash_spec| |now apply IH]. rewrite <- mem_In. congruence.
Qed.
Lemma find_matches_spec l past : text_line l -> find_matches l past = fresh_of past (line_forms l).
Proof.
  intros T. unfold find_matches, line_forms. set (s := remove_chars _ l).
  assert (F : Forall text_line (split_comma s)) by (apply (text_line_phrases s); [apply split_comma_phrases|now apply text_line_remove]).
  assert (G : forall ps acc past, Forall text_line ps ->
    fold_left (fun st phrase => match_phrase phrase (fst st) (snd st)) ps (acc, past) =
    let (ys, past') := fresh_of past (forms ps) in (acc ++ ys, past')).
  { clear. induction ps as [|p ps IH]; cbn [fold_left]; intros acc past F; [cbn; now rewrite app_nil_r|].
    apply Forall_cons_iff in F as [Fp F]. cbn [fst snd]. rewrite match_phrase_spec by (now apply text_line_strip).
    cbn [forms flat_map]. fold (forms ps). destruct (form_of p) as [x|]; cbn [app]; [|now apply IH]. cbn [fresh_of].
    destruct (mem (undash (xname x)) past); [now apply IH|]. rewrite IH by exact F.
    destruct (fresh_of (undash (xname x) :: past) (forms ps)). now rewrite <- app_assoc. }
  rewrite G by exact F. now destruct (fresh_of past (forms (split_comma s))).
Qed.
Lemma collect_spec ls : Forall text_line ls -> forall past gs, scanned past ls gs <-> collect ls past = gs.
Proof.
  intros F. induction F as [|l ls T F IH]; intros past gs; cbn.
  - split; [now inversion 1|]. intros <-. constructor.
  - rewrite (find_matches_spec l past T). split.
    + intros H. inversion H as [|q l' ls' xs past' gs' A B C|q l' ls' xs y ys past' gs' A B C]; subst;
        apply announced_spec in A; apply fresh_spec in B; apply IH in C; subst; rewrite B; reflexivity.
    + destruct (fresh_of past (line_forms l)) as [[|y ys] past'] eqn:E; intros <-.
      * eapply sc_nothing; [now apply announced_spec|apply fresh_spec; exact E|now apply IH].
      * eapply sc_some; [now apply announced_spec|apply fresh_spec; exact E|now apply IH].
Qed.

(** ** Data *)
Definition flag_entries (g : list xbd_arg) : list flag_entry :=
  if forallb is_flag g then [FEList (map xname g)]
  else flat_map (fun x => match x with XFlag n => [FEStr n] | XOption _ _ => [] end) g.
Definition option_entries (g : list xbd_arg) : list option_entry :=
  flat_map (fun x => match x with XFlag _ => [] | XOption n a => [mkOE [n] (OAStr a)] end) g.
Lemma all_flags_options g : forallb is_flag g = true -> option_entries g = [].
Proof. induction g as [|[] g IH]; cbn; auto; discriminate. Qed.
Lemma inner_loop g : forall d, fold_left (fun d x => match x with
                               | XFlag n => mkJson (j_flag d ++ [FEStr n]) (j_option d)
                               | XOption n a => mkJson (j_flag d) (j_option d ++ [mkOE [n] (OAStr a)])
                               end) g d =
  mkJson (j_flag d ++ flat_map (fun x => match x with XFlag n => [FEStr n] | XOption _ _ => [] end) g) (j_option d ++ option_entries g).
Proof.
  induction g as [|[n|n a] g IH]; intros d; cbn; [now rewrite !app_nil_r; destruct d| |]; rewrite IH; cbn; now rewrite <- app_assoc.
Qed.
Lemma parse_args_spec gs : parse_args gs = mkJson (flat_map flag_entries gs) (flat_map option_entries gs).
Proof.
  unfold parse_args. set (step := fun d g => _).
  assert (H : forall gs d, fold_left step gs d = mkJson (j_flag d ++ flat_map flag_entries gs) (j_option d ++ flat_map option_entries gs)).
  { clear gs. induction gs as [|g gs IH]; intros d; cbn [fold_left flat_map]; [rewrite !app_nil_r; now destruct d|]. rewrite IH.
    unfold step, flag_entries. destruct (forallb is_flag g) eqn:E; cbn.
    - rewrite (all_flags_options _ E). now rewrite <- app_assoc.
    - rewrite inner_loop. cbn. now rewrite <- !app_assoc. }
  rewrite H. reflexivity.
Qed.
Lemma all_flags_map g : forallb is_flag g = true -> g = map XFlag (map xname g).
Proof. induction g as [|[] g IH]; cbn; auto; try discriminate. intros H. f_equal. auto. Qed.
Lemma not_all_flags g : forallb is_flag g = false <-> exists n a, In (XOption n a) g.
Proof.
  split.
  - induction g as [|[n|n a] g IH]; cbn; [discriminate| |].
    + intros H. destruct (IH H) as (m & a & I). eauto.
    + intros _. exists n, a. now left.
  - intros (n & a & I). destruct (forallb is_flag g) eqn:E; [|reflexivity]. rewrite forallb_forall in E. now specialize (E _ I).
Qed.
Lemma entries_spec g f o : entries g f o <-> f = flag_entries g /\ o = option_entries g.
Proof.
  split.
  - intros H. destruct H as [ns|g n a I].
    + unfold flag_entries. replace (forallb is_flag (map XFlag ns)) with true; [|now induction ns].
      rewrite map_map. cbn. rewrite map_id. split; [reflexivity|]. now induction ns.
    + unfold flag_entries. rewrite (proj2 (not_all_flags g)) by eauto. now split.
  - intros [-> ->]. unfold flag_entries. destruct (forallb is_flag g) eqn:E.
    + rewrite (all_flags_options _ E). rewrite (all_flags_map _ E) at 1. constructor.
    + apply not_all_flags in E as (n & a & I). econstructor. exact I.
Qed.
Lemma scraped_spec gs j : scraped gs j <-> parse_args gs = j.
Proof.
  rewrite parse_args_spec. revert j. induction gs as [|g gs IH]; intros j; cbn.
  - split; [now inversion 1|]. intros <-. constructor.
  - split.
    + intros H. inversion H as [|g' gs' f o fs os E S]; subst. apply entries_spec in E as [-> ->]. apply IH in S. now injection S as <- <-.
    + intros <-. constructor; [now apply entries_spec|now apply IH].
Qed.

(** ** Names *)
Lemma flat_map_flat_map {A B C} (f : A -> list B) (g : B -> list C) l :
  flat_map g (flat_map f l) = flat_map (fun x => flat_map g (f x)) l.
Proof. induction l as [|x l IH]; cbn; [reflexivity|]. now rewrite flat_map_app, IH. Qed.
Definition flag_names (g : list xbd_arg) : list string := flat_map (fun x => match x with XFlag n => [n] | XOption _ _ => [] end) g.
Definition option_names (g : list xbd_arg) : list string := flat_map (fun x => match x with XFlag _ => [] | XOption n _ => [n] end) g.
Lemma written_flags g : flat_map (fun e => match e with FEList l => l | FEStr s => [s] end) (flag_entries g) = flag_names g.
Proof.
  unfold flag_entries. destruct (forallb is_flag g) eqn:E.
  - cbn. rewrite app_nil_r. induction g as [|[n|n a] g IH]; cbn in *; [reflexivity| |discriminate]. now rewrite IH.
  - clear E. induction g as [|[n|n a] g IH]; cbn; [reflexivity| |exact IH]. now rewrite IH.
Qed.
Lemma written_options g : flat_map oe_names (option_entries g) = option_names g.
Proof. induction g as [|[n|n a] g IH]; cbn; [reflexivity|exact IH|]. unfold option_entries in IH. now rewrite IH. Qed.
Lemma names_split g : Permutation (flag_names g ++ option_names g) (map xname g).
Proof.
  induction g as [|[n|n a] g IH]; cbn; [constructor|now constructor|].
  rewrite <- Permutation_middle. now constructor.
Qed.
Lemma written_names gs : Permutation (written (parse_args gs)) (map xname (concat gs)).
Proof.
  rewrite parse_args_spec. unfold written. cbn. rewrite !flat_map_flat_map.
  rewrite (flat_map_ext _ _ (fun g => written_flags g)), (flat_map_ext _ _ (fun g => written_options g)).
  induction gs as [|g gs IH]; cbn; [constructor|]. rewrite map_app, <- IH, <- names_split.
  rewrite <- !app_assoc. apply Permutation_app_head. rewrite !app_assoc. apply Permutation_app_tail. apply Permutation_app_comm.
Qed.
Lemma fresh_of_nodup xs : forall past ys past', fresh_of past xs = (ys, past') -> NoDup past ->
  NoDup past' /\ past' = rev (map (fun x => undash (xname x)) ys) ++ past.
Proof.
  induction xs as [|x xs IH]; cbn; intros past ys past' H N; [injection H as <- <-; auto|].
  destruct (mem (undash (xname x)) past) eqn:E; [now apply IH|].
  destruct (fresh_of (undash (xname x) :: past) xs) as [zs q] eqn:F. injection H as <- <-.
  apply IH in F as [F1 F2]; [|constructor; [rewrite <- mem_In; congruence|exact N]]. split; [exact F1|].
  rewrite F2. cbn. now rewrite <- app_assoc.
Qed.
Lemma fresh_of_covers xs : forall past ys past', fresh_of past xs = (ys, past') ->
  forall x, In x xs -> In (undash (xname x)) past'.
Proof.
  assert (M : forall xs past ys past', fresh_of past xs = (ys, past') -> incl past past').
  { clear. induction xs as [|x xs IH]; cbn; intros past ys past' H; [injection H as <- <-; apply incl_refl|].
    destruct (mem (undash (xname x)) past) eqn:E; [now apply (IH _ ys)|].
    destruct (fresh_of (undash (xname x) :: past) xs) as [zs q] eqn:F. injection H as <- <-. apply IH in F.
    intros b B. apply F. now right. }
  induction xs as [|x xs IH]; cbn; intros past ys past' H y I; [destruct I|].
  destruct (mem (undash (xname x)) past) eqn:E.
  - destruct I as [->|I]; [|now apply (IH _ _ _ H)]. apply (M _ _ _ _ H). now apply mem_In.
  - destruct (fresh_of (undash (xname x) :: past) xs) as [zs q] eqn:F. injection H as <- <-.
    destruct I as [->|I]; [|now apply (IH _ _ _ F)]. apply (M _ _ _ _ F). now left.
Qed.
Lemma collect_past ls : Forall text_line ls -> forall past, NoDup past ->
  NoDup (rev (map (fun x => undash (xname x)) (concat (collect ls past))) ++ past) /\
  forall l x, In l ls -> In x (line_forms l) -> In (undash (xname x)) (rev (map (fun x => undash (xname x)) (concat (collect ls past))) ++ past).
Proof.
  intros F. induction F as [|l ls T F IH]; intros past N; cbn; [split; [exact N|contradiction]|].
  rewrite (find_matches_spec l past T). destruct (fresh_of past (line_forms l)) as [ys past'] eqn:E.
  destruct (fresh_of_nodup _ _ _ _ E N) as [N' P]. destruct (IH past' N') as [H1 H2].
  assert (Q : concat (match ys with [] => collect ls past' | _ => ys :: collect ls past' end) = ys ++ concat (collect ls past')) by (now destruct ys).
  rewrite Q, map_app, rev_app_distr, <- app_assoc, <- P. split; [exact H1|]. intros l' x [->|I] J.
  - apply in_or_app. right. now apply (fresh_of_covers _ _ _ _ E).
  - now apply (H2 l').
Qed.
Lemma spelling_dash n : spelling n -> exists r, n = String dash r /\ r <> "".
Proof.
  intros (ds & w & -> & _ & H). exists (ds +++ w). split; [reflexivity|]. intros Q. apply sapp_eq_nil in Q as [_ ->].
  destruct H as [(c & Q & _)|(c & w' & Q & _)]; discriminate.
Qed.
