(** * Facts about JSON texts: the functions of Json.v against the grammar of SpecJson.v *)
From Coq Require Import NArith Lia.
Require Import Verif.PyBase Verif.SpecShlex Verif.JsonData Verif.Json Verif.SpecJson.

Lemma app_assoc_s a b c : (a +++ b) +++ c = a +++ b +++ c.
Proof. induction a; cbn; congruence. Qed.
Lemma app_nil_s a : a +++ "" = a.
Proof. induction a; cbn; congruence. Qed.
Lemma app_length_s a b : String.length (a +++ b) = String.length a + String.length b.
Proof. induction a; cbn; congruence. Qed.
Lemma all_app P a b : all_chars P (a +++ b) <-> all_chars P a /\ all_chars P b.
Proof. induction a; cbn; [tauto|]. rewrite IHa. tauto. Qed.

(** ** Blanks *)
Lemma json_space_iff c : json_space c = true <-> blank c.
Proof.
  unfold json_space, blank. rewrite !Bool.orb_true_iff, !Ascii.eqb_eq. tauto.
Qed.
Definition solid (s : string) : Prop := match s with "" => True | String c _ => json_space c = false end.
Lemma skip_split s : exists b, s = b +++ skip_space s /\ blanks b /\ solid (skip_space s).
Proof.
  induction s as [|c s (b & E & B & H)]; cbn.
  - exists "". cbn. auto.
  - destruct (json_space c) eqn:J.
    + exists (String c b). cbn. split; [congruence|]. split; [|exact H]. split; [now apply json_space_iff|exact B].
    + exists "". cbn. auto.
Qed.
Lemma skip_blanks b s : blanks b -> skip_space (b +++ s) = skip_space s.
Proof.
  induction b as [|c b IH]; cbn; [reflexivity|]. intros [H B].
  apply json_space_iff in H. rewrite H. now apply IH.
Qed.
Lemma skip_solid s : solid s -> skip_space s = s.
Proof. destruct s; cbn; [reflexivity|]. now intros ->. Qed.
Lemma skip_all b : blanks b -> skip_space b = "".
Proof. intros B. rewrite <- (app_nil_s b). now rewrite skip_blanks. Qed.
Lemma skip_empty s : skip_space s = "" -> blanks s.
Proof. intros E. destruct (skip_split s) as (b & E1 & B & _). rewrite E, app_nil_s in E1. now subst. Qed.

(** ** Strings *)
Lemma hex_value_iff c n : hex_value c = Some n <-> hex_digit_of c n.
Proof.
  split.
  - destruct c as [[|] [|] [|] [|] [|] [|] [|] [|]]; intros E; try discriminate E;
      vm_compute in E; injection E as <-;
      first [ match goal with |- hex_digit_of ?c ?n => change c with (ascii_of_N (48 + n)) end; apply hd_dec; lia
            | match goal with |- hex_digit_of ?c ?n => change c with (ascii_of_N (97 + (n - 10))) end; apply hd_low; lia
            | match goal with |- hex_digit_of ?c ?n => change c with (ascii_of_N (65 + (n - 10))) end; apply hd_upp; lia ].
  - intros H.
    assert (Dec : forall n, (n < 10)%N -> n = 0%N \/ n = 1%N \/ n = 2%N \/ n = 3%N \/ n = 4%N \/ n = 5%N \/ n = 6%N \/ n = 7%N \/ n = 8%N \/ n = 9%N) by (intros; lia).
    assert (Six : forall n, (10 <= n < 16)%N -> n = 10%N \/ n = 11%N \/ n = 12%N \/ n = 13%N \/ n = 14%N \/ n = 15%N) by (intros; lia).
    inversion H as [m L|m L|m L]; subst;
      [apply Dec in L|apply Six in L|apply Six in L];
      repeat destruct L as [->|L]; subst; reflexivity.
Qed.
Lemma hex_bound c n : hex_value c = Some n -> (n < 16)%N.
Proof. intros E. apply hex_value_iff in E. inversion E; lia. Qed.
Lemma hex4_iff a b c d n : hex4 a b c d = Some n <->
  exists x y z w, hex_digit_of a x /\ hex_digit_of b y /\ hex_digit_of c z /\ hex_digit_of d w /\
    n = (4096 * x + 256 * y + 16 * z + w)%N.
Proof.
  unfold hex4. split.
  - destruct (hex_value a) eqn:A; [|discriminate]. destruct (hex_value b) eqn:B; [|discriminate].
    destruct (hex_value c) eqn:C; [|discriminate]. destruct (hex_value d) eqn:D; [|discriminate].
    intros E. injection E as <-. do 4 eexists. rewrite <- !hex_value_iff. rewrite A, B, C, D.
    repeat split; try reflexivity. lia.
  - intros (x & y & z & w & A & B & C & D & ->). apply hex_value_iff in A, B, C, D.
    rewrite A, B, C, D. f_equal. lia.
Qed.
Lemma backslash_iff e n : backslash_value e = Some n <-> In (one_char e, n) short_escapes.
Proof.
  split.
  - destruct e as [[|] [|] [|] [|] [|] [|] [|] [|]]; intros E; try discriminate E;
      vm_compute in E; injection E as <-; vm_compute; tauto.
  - cbn. intros H. repeat destruct H as [H|H]; try (injection H as <- <-; reflexivity). destruct H.
Qed.
Lemma scan_chars_sound : forall k s l r, String.length s <= k -> scan_chars s = Some (l, r) ->
  exists t, s = t +++ String """" r /\ units_text l t.
Proof.
  induction k as [|k IH]; intros s l r L E.
  - destruct s; [discriminate|cbn in L; lia].
  - destruct s as [|c s1]; [discriminate|]. cbn in E, L.
    destruct (Ascii.eqb c """") eqn:Q.
    { injection E as <- <-. apply Ascii.eqb_eq in Q. subst c. exists "". split; [reflexivity|constructor]. }
    destruct (Ascii.eqb c "\") eqn:Bk.
    + apply Ascii.eqb_eq in Bk. subst c. destruct s1 as [|e s2]; [discriminate|].
      destruct (Ascii.eqb e "u") eqn:U.
      * apply Ascii.eqb_eq in U. subst e.
        destruct s2 as [|h1 [|h2 [|h3 [|h4 s3]]]]; try discriminate.
        destruct (hex4 h1 h2 h3 h4) eqn:H4; [|discriminate].
        destruct (scan_chars s3) as [[l' r']|] eqn:S; [|discriminate]. injection E as <- <-.
        apply IH in S; [|cbn in L; lia]. destruct S as (t & -> & U).
        apply hex4_iff in H4. destruct H4 as (x & y & z & w & A & B & C & D & ->).
        eexists (_ +++ t). split; [|constructor; [eapply ut_hex; eassumption|exact U]]. reflexivity.
      * destruct (backslash_value e) eqn:V; [|discriminate].
        destruct (scan_chars s2) as [[l' r']|] eqn:S; [|discriminate]. injection E as <- <-.
        apply IH in S; [|cbn in L; lia]. destruct S as (t & -> & U').
        apply backslash_iff in V. eexists (_ +++ t).
        split; [|constructor; [eapply ut_short; eassumption|exact U']]. reflexivity.
    + destruct (N.leb (code c) 31) eqn:Cc; [discriminate|].
      destruct (scan_chars s1) as [[l' r']|] eqn:S; [|discriminate]. injection E as <- <-.
      apply IH in S; [|lia]. destruct S as (t & -> & U').
      exists (one_char c +++ t). split; [reflexivity|]. constructor; [|exact U'].
      apply ut_plain.
      * intros H. apply Ascii.eqb_neq in Q. apply Q. rewrite <- (ascii_nat_embedding c), H. reflexivity.
      * intros H. apply Ascii.eqb_neq in Bk. apply Bk. rewrite <- (ascii_nat_embedding c), H. reflexivity.
      * apply N.leb_gt in Cc. unfold code in Cc. unfold nat_of_ascii. lia.
Qed.
Lemma scan_unit n s t : unit_text n s ->
  scan_chars (s +++ t) = match scan_chars t with Some (l, r) => Some (n :: l, r) | None => None end.
Proof.
  intros U. inversion U as [c NQ NB NC|e m I|a b c d x y z w A B C D]; subst.
  - cbn. replace (Ascii.eqb c """") with false
      by (symmetry; apply Ascii.eqb_neq; intros ->; now apply NQ).
    replace (Ascii.eqb c "\") with false by (symmetry; apply Ascii.eqb_neq; intros ->; now apply NB).
    replace (N.leb (code c) 31) with false; [reflexivity|].
    symmetry. apply N.leb_gt. unfold code, nat_of_ascii in *. lia.
  - cbn in I. repeat destruct I as [I|I]; try (injection I as <- <-; reflexivity). destruct I.
  - cbn [append one_char].
    change (backslash +++ "u" +++ String a (String b (String c (String d ""))))
      with (String "\" (String "u" (String a (String b (String c (String d "")))))).
    cbn [append]. cbn -[hex4 scan_chars]. unfold one_char; cbn [append].
    cbn [scan_chars]. cbn [Ascii.eqb Bool.eqb].
    assert (H : hex4 a b c d = Some (4096 * x + 256 * y + 16 * z + w)%N).
    { apply hex4_iff. exists x, y, z, w. auto. }
    rewrite H. reflexivity.
Qed.
Lemma scan_chars_complete l t r : units_text l t -> scan_chars (t +++ String """" r) = Some (l, r).
Proof.
  induction 1 as [|n l s t U US IH]; [reflexivity|].
  rewrite app_assoc_s, (scan_unit _ _ _ U), IH. reflexivity.
Qed.
Lemma high_iff n : high n = true <-> is_high n.
Proof. unfold high, is_high. rewrite Bool.andb_true_iff, !N.leb_le. lia. Qed.
Lemma low_iff n : low n = true <-> is_low n.
Proof. unfold low, is_low. rewrite Bool.andb_true_iff, !N.leb_le. lia. Qed.
Lemma join_pairs_right : forall k l, List.length l <= k -> code_points l (join_pairs l).
Proof.
  induction k as [|k IH]; intros [|a [|b l]] L; cbn in L; try lia; try constructor.
  - intros b l' E. discriminate.
  - constructor.
  - change (join_pairs (a :: b :: l)) with
      (if high a && low b then (65536 + (a - 55296) * 1024 + (b - 56320))%N :: join_pairs l else a :: join_pairs (b :: l)).
    destruct (high a && low b) eqn:H.
    + apply Bool.andb_true_iff in H. destruct H as [H1 H2].
      replace ((a - 55296) * 1024)%N with (1024 * (a - 55296))%N by lia.
      apply cp_pair; [now apply high_iff|now apply low_iff|apply IH; lia].
    + apply cp_single; [|apply IH; cbn; lia].
      intros b' l' E [H1 H2]. injection E as <- <-. apply high_iff in H1. apply low_iff in H2.
      rewrite H1, H2 in H. discriminate.
Qed.
Lemma code_points_fun l m : code_points l m -> m = join_pairs l.
Proof.
  induction 1 as [|a b l m A B C IH|a l m N C IH]; [reflexivity| |].
  - cbn [join_pairs]. apply high_iff in A. apply low_iff in B. rewrite A, B. cbn [andb].
    rewrite <- IH. f_equal. lia.
  - destruct l as [|b l]; [now subst|].
    change (join_pairs (a :: b :: l)) with
      (if high a && low b then (65536 + (a - 55296) * 1024 + (b - 56320))%N :: join_pairs l else a :: join_pairs (b :: l)).
    destruct (high a && low b) eqn:H; [|congruence].
    apply Bool.andb_true_iff in H. destruct H as [H1 H2]. exfalso.
    apply (N b l eq_refl). split; [now apply high_iff|now apply low_iff].
Qed.
Lemma scan_string_sound s l r : scan_string s = Some (l, r) ->
  exists t, String """" s = t +++ r /\ string_text l t.
Proof.
  unfold scan_string. destruct (scan_chars s) as [[m r']|] eqn:E; [|discriminate].
  intros H. injection H as <- <-. apply (scan_chars_sound (String.length s)) in E; [|lia].
  destruct E as (t & -> & U). exists (quote +++ t +++ quote). split.
  - cbn. f_equal. rewrite app_assoc_s. reflexivity.
  - econstructor; [exact U|]. now apply (join_pairs_right (List.length m)).
Qed.
Lemma scan_string_complete l t r : string_text l t ->
  exists t', t = String """" t' /\ scan_string (t' +++ r) = Some (l, r).
Proof.
  intros H. inversion H as [m l' s U C]; subst. exists (s +++ quote). split; [reflexivity|].
  unfold scan_string. rewrite app_assoc_s. change (quote +++ r) with (String """" r).
  rewrite (scan_chars_complete _ _ _ U). f_equal. f_equal. now apply code_points_fun in C.
Qed.

(** ** Numbers *)
Lemma digit_iff c : digit c = true <-> is_digit c.
Proof.
  unfold digit, is_digit, code, nat_of_ascii. rewrite Bool.andb_true_iff, !N.leb_le. lia.
Qed.
Definition no_digit (s : string) : Prop := match s with "" => True | String c _ => digit c = false end.
Lemma scan_digits_sound s d r : scan_digits s = (d, r) -> s = d +++ r /\ digits d.
Proof.
  revert d r. induction s as [|c s IH]; intros d r E; cbn in E.
  - injection E as <- <-. cbn. auto.
  - destruct (digit c) eqn:D.
    + destruct (scan_digits s) as [d' r']. injection E as <- <-. destruct (IH _ _ eq_refl) as [-> H].
      split; [reflexivity|]. split; [now apply digit_iff|exact H].
    + injection E as <- <-. cbn. auto.
Qed.
Lemma scan_digits_complete d r : digits d -> no_digit r -> scan_digits (d +++ r) = (d, r).
Proof.
  induction d as [|c d IH]; cbn; intros D N.
  - destruct r; cbn in *; [reflexivity|now rewrite N].
  - destruct D as [C D]. apply digit_iff in C. rewrite C. now rewrite (IH D N).
Qed.
(** What may follow a number: the end, or a character that cannot continue one *)
Definition follows (r : string) : Prop :=
  match r with
  | "" => True
  | String c _ => digit c = false /\ c <> "."%char /\ c <> "e"%char /\ c <> "E"%char
  end.
Lemma scan_integer_sound s i r : scan_integer s = Some (i, r) -> s = i +++ r /\ integer_part i.
Proof.
  destruct s as [|c s]; cbn; [discriminate|]. destruct (Ascii.eqb c "0") eqn:Z.
  - intros E. injection E as <- <-. apply Ascii.eqb_eq in Z. subst. split; [reflexivity|now left].
  - destruct (digit c) eqn:D; [|discriminate]. destruct (scan_digits s) as [d r'] eqn:S.
    intros E. injection E as <- <-. apply scan_digits_sound in S. destruct S as [-> H].
    split; [reflexivity|]. right. exists c, d. split; [reflexivity|]. split; [now apply digit_iff|].
    split; [now apply Ascii.eqb_neq|exact H].
Qed.
Lemma scan_integer_complete i r : integer_part i -> no_digit r -> scan_integer (i +++ r) = Some (i, r).
Proof.
  intros [->|(c & d & -> & C & Z & D)] N; [reflexivity|]. cbn.
  apply Ascii.eqb_neq in Z. rewrite Z. apply digit_iff in C. rewrite C.
  now rewrite (scan_digits_complete _ _ D N).
Qed.
Lemma scan_fraction_sound s f r : scan_fraction s = (f, r) -> s = f +++ r /\ fraction_part f.
Proof.
  destruct s as [|c s]; cbn; [intros E; injection E as <- <-; split; [reflexivity|now left]|].
  destruct (Ascii.eqb c ".") eqn:Z; [|intros E; injection E as <- <-; split; [reflexivity|now left]].
  apply Ascii.eqb_eq in Z. subst c. destruct (scan_digits s) as [[|x d] r'] eqn:S; intros E; injection E as <- <-.
  - split; [reflexivity|now left].
  - apply scan_digits_sound in S. destruct S as [-> H]. split; [reflexivity|]. right.
    exists (String x d). split; [reflexivity|]. split; [discriminate|exact H].
Qed.
Lemma scan_fraction_complete f r : fraction_part f -> no_digit r -> (f = "" -> forall s, r <> String "." s) ->
  scan_fraction (f +++ r) = (f, r).
Proof.
  intros [->|(d & -> & D0 & D)] N NE.
  - cbn. destruct r as [|c r]; [reflexivity|]. cbn. destruct (Ascii.eqb c ".") eqn:Z; [|reflexivity].
    apply Ascii.eqb_eq in Z. subst c. now destruct (NE eq_refl r).
  - cbn. rewrite (scan_digits_complete _ _ D N). destruct d; [congruence|reflexivity].
Qed.
Lemma scan_sign_sound s g r : scan_sign s = (g, r) -> s = g +++ r /\ In g [""; "-"; "+"].
Proof.
  destruct s as [|c s]; cbn; [intros E; injection E as <- <-; auto|].
  destruct (Ascii.eqb c "-") eqn:M; [|destruct (Ascii.eqb c "+") eqn:P]; cbn; intros E; injection E as <- <-.
  - apply Ascii.eqb_eq in M. subst. auto.
  - apply Ascii.eqb_eq in P. subst. auto.
  - auto.
Qed.
Lemma scan_exponent_sound s e r : scan_exponent s = (e, r) -> s = e +++ r /\ exponent_part e.
Proof.
  destruct s as [|c s]; cbn; [intros E; injection E as <- <-; split; [reflexivity|now left]|].
  destruct (Ascii.eqb c "e" || Ascii.eqb c "E") eqn:Z; [|intros E; injection E as <- <-; split; [reflexivity|now left]].
  destruct (scan_sign s) as [g s1] eqn:G. apply scan_sign_sound in G. destruct G as [-> G].
  destruct (scan_digits s1) as [[|x d] r'] eqn:S; intros E; injection E as <- <-.
  - split; [reflexivity|now left].
  - apply scan_digits_sound in S. destruct S as [-> H]. split.
    + cbn. f_equal. rewrite app_assoc_s. reflexivity.
    + right. exists (one_char c), g, (String x d). split; [reflexivity|]. split.
      * apply Bool.orb_true_iff in Z. rewrite !Ascii.eqb_eq in Z. destruct Z as [-> | ->]; cbn; auto.
      * split; [exact G|]. split; [discriminate|exact H].
Qed.
Lemma scan_exponent_complete e r : exponent_part e -> follows r -> scan_exponent (e +++ r) = (e, r).
Proof.
  intros [->|(x & g & d & -> & X & G & D0 & D)] F.
  - cbn. destruct r as [|c r]; [reflexivity|]. cbn in F |- *. destruct F as (_ & _ & F1 & F2).
    apply Ascii.eqb_neq in F1, F2. now rewrite F1, F2.
  - assert (N : no_digit r) by (destruct r; cbn in *; tauto).
    destruct d as [|c d]; [congruence|].
    assert (Sg : scan_sign (g +++ String c d +++ r) = (g, String c d +++ r)).
    { cbn in G. destruct G as [<-|[<-|[<-|[]]]]; try reflexivity. cbn.
      destruct D as [C _]. apply digit_iff in C.
      destruct (Ascii.eqb c "-") eqn:M; [apply Ascii.eqb_eq in M; subst; discriminate|].
      destruct (Ascii.eqb c "+") eqn:P; [apply Ascii.eqb_eq in P; subst; discriminate|]. reflexivity. }
    rewrite !app_assoc_s.
    set (d' := String c d) in *. assert (Nd : d' <> "") by discriminate. clearbody d'.
    cbn in X. destruct X as [<-|[<-|[]]]; cbn [append scan_exponent]; cbn [Ascii.eqb Bool.eqb orb];
      rewrite Sg, (scan_digits_complete _ _ D N); destruct d'; (congruence || reflexivity).
Qed.
Lemma scan_minus_sound s m r : scan_minus s = (m, r) -> s = m +++ r /\ In m [""; "-"].
Proof.
  destruct s as [|c s]; cbn; [intros E; injection E as <- <-; auto|].
  destruct (Ascii.eqb c "-") eqn:M; intros E; injection E as <- <-; [|auto].
  apply Ascii.eqb_eq in M. subst. auto.
Qed.
Lemma scan_number_sound s n r : scan_number s = Some (n, r) -> s = n +++ r /\ number_text n.
Proof.
  unfold scan_number. destruct (scan_minus s) as [m s0] eqn:M. apply scan_minus_sound in M. destruct M as [-> M].
  destruct (scan_integer s0) as [[i s1]|] eqn:I; [|discriminate]. apply scan_integer_sound in I. destruct I as [-> I].
  destruct (scan_fraction s1) as [f s2] eqn:F. apply scan_fraction_sound in F. destruct F as [-> F].
  destruct (scan_exponent s2) as [e s3] eqn:X. apply scan_exponent_sound in X. destruct X as [-> X].
  intros E. injection E as <- <-. split; [now rewrite !app_assoc_s|]. exists m, i, f, e. auto.
Qed.
Lemma integer_first i : integer_part i -> exists c d, i = String c d /\ digit c = true.
Proof.
  intros [->|(c & d & -> & C & _ & _)]; [exists "0"%char, ""; auto|].
  exists c, d. split; [reflexivity|]. now apply digit_iff.
Qed.
Lemma exponent_first e : exponent_part e -> e = "" \/ exists c d, e = String c d /\ digit c = false /\ c <> "."%char.
Proof.
  intros [->|(x & g & d & -> & X & _)]; [now left|right].
  cbn in X. destruct X as [<-|[<-|[]]]; cbn; eexists _, _; (split; [reflexivity|]); split; try reflexivity; discriminate.
Qed.
Lemma scan_number_complete n r : number_text n -> follows r -> scan_number (n +++ r) = Some (n, r).
Proof.
  intros (m & i & f & e & -> & M & I & F & X) FO. rewrite !app_assoc_s. unfold scan_number.
  assert (NR : no_digit r) by (destruct r; cbn in *; tauto).
  assert (NE : no_digit (e +++ r)).
  { destruct (exponent_first _ X) as [->|(c & d & -> & D & _)]; [exact NR|exact D]. }
  assert (NF : no_digit (f +++ e +++ r)).
  { destruct F as [->|(d & -> & _)]; [exact NE|reflexivity]. }
  assert (SM : scan_minus (m +++ i +++ f +++ e +++ r) = (m, i +++ f +++ e +++ r)).
  { cbn in M. destruct M as [<-|[<-|[]]]; [|reflexivity].
    destruct (integer_first _ I) as (c & d & -> & D). cbn.
    destruct (Ascii.eqb c "-") eqn:Z; [|reflexivity]. apply Ascii.eqb_eq in Z. subst. discriminate. }
  rewrite SM, (scan_integer_complete _ _ I NF), (scan_fraction_complete _ _ F NE).
  - rewrite (scan_exponent_complete _ _ X FO). reflexivity.
  - intros _ s E. destruct (exponent_first _ X) as [->|(c & d & -> & _ & D)].
    + cbn in E. subst r. cbn in FO. tauto.
    + cbn in E. congruence.
Qed.
Lemma number_first n : number_text n -> exists c d, n = String c d /\
  (digit c = true \/ c = "-"%char /\ exists x y, d = String x y /\ digit x = true).
Proof.
  intros (m & i & f & e & -> & M & I & _). destruct (integer_first _ I) as (c & d & -> & D).
  cbn in M. destruct M as [<-|[<-|[]]]; cbn; eexists _, _; (split; [reflexivity|]); [now left|right].
  split; [reflexivity|]. eexists _, _. split; [reflexivity|exact D].
Qed.

(** ** Words *)
Lemma cut_prefix_iff p s r : cut_prefix p s = Some r <-> s = p +++ r.
Proof.
  revert s. induction p as [|a p IH]; intros s; cbn.
  - split; [now intros [= ->]|now intros ->].
  - destruct s as [|b s]; [split; discriminate|]. destruct (Ascii.eqb a b) eqn:E.
    + apply Ascii.eqb_eq in E. subst b. rewrite IH. split; [congruence|now intros [= ->]].
    + apply Ascii.eqb_neq in E. split; [discriminate|]. intros [= H _]. congruence.
Qed.
Lemma scan_word_sound ws s w r : scan_word ws s = Some (w, r) -> s = w +++ r /\ In w ws.
Proof.
  induction ws as [|x ws IH]; cbn; [discriminate|]. destruct (cut_prefix x s) eqn:C.
  - intros [= <- <-]. apply cut_prefix_iff in C. auto.
  - intros E. apply IH in E. tauto.
Qed.
Lemma scan_word_complete w r : In w words -> scan_word json_words (w +++ r) = Some (w, r).
Proof. cbn [In words]. intros H. repeat destruct H as [<-|H]; try reflexivity. destruct H. Qed.
Lemma scan_word_number n r : number_text n -> scan_word json_words (n +++ r) = None.
Proof.
  intros N. destruct (scan_word json_words (n +++ r)) as [[w r']|] eqn:E; [exfalso|reflexivity].
  apply scan_word_sound in E. destruct E as [E W].
  destruct (number_first _ N) as (c & d & -> & [D|(-> & x & y & -> & D)]); cbn [append] in E;
    cbn [In json_words] in W; repeat destruct W as [<-|W]; try (destruct W);
    cbn [append] in E; try (injection E as -> _; discriminate D); try discriminate E;
    injection E as -> _; discriminate D.
Qed.

(** ** Values *)
Scheme value_mut := Minimality for value_text Sort Prop
  with items_mut := Minimality for items_text Sort Prop
  with members_mut := Minimality for members_text Sort Prop.
Combined Scheme json_mut from value_mut, items_mut, members_mut.

Lemma value_first v s : value_text v s -> exists c d, s = String c d /\ json_space c = false /\
  c <> "]"%char /\ c <> "}"%char /\ c <> ","%char.
Proof.
  intros H. inversion H as [w W|n N|l t T|b B|l t T|b B|l t T]; subst;
    try (cbn; eexists _, _; split; [reflexivity|]; repeat split; (reflexivity || discriminate)).
  - cbn in W. repeat destruct W as [<-|W];
      try (cbn; eexists _, _; split; [reflexivity|]; repeat split; (reflexivity || discriminate)). destruct W.
  - destruct (number_first _ N) as (c & d & -> & [D|(-> & _)]); exists c, d || exists "-"%char, d;
      (split; [reflexivity|]); repeat split; try reflexivity; try discriminate;
      try (intros ->; discriminate D).
    destruct (json_space c) eqn:J; [|reflexivity]. apply json_space_iff in J.
    destruct J as [->|[->|[->| ->]]]; discriminate D.
  - inversion T; subst. cbn. eexists _, _. split; [reflexivity|]. repeat split; (reflexivity || discriminate).
Qed.

Lemma scan_sound : forall fuel,
  (forall s v r, scan fuel s = Some (v, r) -> exists t, s = t +++ r /\ value_text v t) /\
  (forall s l r, scan_items fuel s = Some (l, r) -> exists t, s = t +++ String "]" r /\ items_text l t) /\
  (forall s l r, scan_members fuel s = Some (l, r) -> exists t, s = t +++ String "}" r /\ members_text l t).
Proof.
  induction fuel as [|fuel (IHv & IHi & IHm)]; [repeat split; discriminate|].
  split; [|split].
  - intros [|c s] v r E; [discriminate|]. cbn [scan] in E.
    destruct (Ascii.eqb c """") eqn:Q.
    { apply Ascii.eqb_eq in Q. subst c. destruct (scan_string s) as [[l r']|] eqn:S; [|discriminate].
      injection E as <- <-. apply scan_string_sound in S. destruct S as (t & E & T).
      exists t. split; [exact E|]. now constructor. }
    destruct (Ascii.eqb c "[") eqn:A.
    { apply Ascii.eqb_eq in A. subst c. destruct (skip_split s) as (b & Eb & B & _).
      destruct (skip_space s) as [|d r0] eqn:K; [discriminate|]. destruct (Ascii.eqb d "]") eqn:D.
      - apply Ascii.eqb_eq in D. subst d. injection E as <- <-. exists ("[" +++ b +++ "]").
        split; [|now constructor]. cbn. f_equal. rewrite app_assoc_s. exact Eb.
      - destruct (scan_items fuel (String d r0)) as [[l r']|] eqn:S; [|discriminate]. injection E as <- <-.
        apply IHi in S. destruct S as (t & Et & T). exists ("[" +++ (b +++ t) +++ "]"). split.
        + cbn. f_equal. rewrite Eb, Et, !app_assoc_s. reflexivity.
        + apply vt_array. inversion T; subst.
          * rewrite <- app_assoc_s. apply it_one; auto. unfold blanks in *. now apply all_app.
          * rewrite <- app_assoc_s. apply it_more; auto. unfold blanks in *. now apply all_app. }
    destruct (Ascii.eqb c "{") eqn:O.
    { apply Ascii.eqb_eq in O. subst c. destruct (skip_split s) as (b & Eb & B & _).
      destruct (skip_space s) as [|d r0] eqn:K; [discriminate|]. destruct (Ascii.eqb d "}") eqn:D.
      - apply Ascii.eqb_eq in D. subst d. injection E as <- <-. exists ("{" +++ b +++ "}").
        split; [|now constructor]. cbn. f_equal. rewrite app_assoc_s. exact Eb.
      - destruct (scan_members fuel (String d r0)) as [[l r']|] eqn:S; [|discriminate]. injection E as <- <-.
        apply IHm in S. destruct S as (t & Et & T). exists ("{" +++ (b +++ t) +++ "}"). split.
        + cbn. f_equal. rewrite Eb, Et, !app_assoc_s. reflexivity.
        + apply vt_object. inversion T; subst.
          * rewrite <- app_assoc_s. apply mt_one; auto. unfold blanks in *. now apply all_app.
          * rewrite <- app_assoc_s. apply mt_more; auto. unfold blanks in *. now apply all_app. }
    destruct (scan_word json_words (String c s)) as [[w r']|] eqn:W.
    { injection E as <- <-. apply scan_word_sound in W. destruct W as [W I].
      exists w. split; [exact W|]. now constructor. }
    destruct (scan_number (String c s)) as [[n r']|] eqn:N; [|discriminate]. injection E as <- <-.
    apply scan_number_sound in N. destruct N as [N I]. exists n. split; [exact N|]. now constructor.
  - intros s l r E. cbn [scan_items] in E.
    destruct (scan fuel s) as [[v r0]|] eqn:S; [|discriminate]. apply IHv in S. destruct S as (t & -> & T).
    destruct (skip_split r0) as (b & Eb & B & _). destruct (skip_space r0) as [|d r1]; [discriminate|].
    destruct (Ascii.eqb d "]") eqn:D.
    + apply Ascii.eqb_eq in D. subst d. injection E as <- <-. exists ("" +++ t +++ b). split.
      * cbn. rewrite Eb, !app_assoc_s. reflexivity.
      * apply it_one; auto. exact I.
    + destruct (Ascii.eqb d ",") eqn:C; [|discriminate]. apply Ascii.eqb_eq in C. subst d.
      destruct (scan_items fuel (skip_space r1)) as [[l' r2]|] eqn:S; [|discriminate]. injection E as <- <-.
      apply IHi in S. destruct S as (t2 & E2 & T2). destruct (skip_split r1) as (b' & Eb' & B' & _).
      exists ("" +++ t +++ b +++ "," +++ b' +++ t2). split.
      * cbn [append]. rewrite Eb, Eb', E2, !app_assoc_s. cbn [append]. rewrite !app_assoc_s. reflexivity.
      * apply it_more; auto; [exact I|]. inversion T2; subst.
        -- rewrite <- app_assoc_s. apply it_one; auto. unfold blanks in *. now apply all_app.
        -- rewrite <- app_assoc_s. apply it_more; auto. unfold blanks in *. now apply all_app.
  - intros [|c s] l r E; [discriminate|]. cbn [scan_members] in E.
    destruct (Ascii.eqb c """") eqn:Q; [|discriminate]. apply Ascii.eqb_eq in Q. subst c.
    destruct (scan_string s) as [[k r0]|] eqn:S; [|discriminate]. apply scan_string_sound in S.
    destruct S as (ks & -> & K). destruct (skip_split r0) as (b2 & E2 & B2 & _).
    destruct (skip_space r0) as [|e r1]; [discriminate|].
    destruct (Ascii.eqb e ":") eqn:C; [|discriminate]. apply Ascii.eqb_eq in C. subst e.
    destruct (skip_split r1) as (b3 & E3 & B3 & _).
    destruct (scan fuel (skip_space r1)) as [[v r2]|] eqn:S; [|discriminate]. apply IHv in S.
    destruct S as (t & Et & T). destruct (skip_split r2) as (b4 & E4 & B4 & _).
    destruct (skip_space r2) as [|d r3]; [discriminate|].
    destruct (Ascii.eqb d "}") eqn:D.
    + apply Ascii.eqb_eq in D. subst d. injection E as <- <-.
      exists ("" +++ ks +++ b2 +++ ":" +++ b3 +++ t +++ b4). split.
      * cbn [append]. rewrite E2, E3, Et, E4, !app_assoc_s. cbn [append]. rewrite !app_assoc_s. reflexivity.
      * apply mt_one; auto. exact I.
    + destruct (Ascii.eqb d ",") eqn:C; [|discriminate]. apply Ascii.eqb_eq in C. subst d.
      destruct (scan_members fuel (skip_space r3)) as [[l' r4]|] eqn:S; [|discriminate]. injection E as <- <-.
      apply IHm in S. destruct S as (t2 & Et2 & T2). destruct (skip_split r3) as (b' & Eb' & B' & _).
      exists ("" +++ ks +++ b2 +++ ":" +++ b3 +++ t +++ b4 +++ "," +++ b' +++ t2). split.
      * cbn [append]. rewrite E2, E3, Et, E4, Eb', Et2, !app_assoc_s. cbn [append].
        rewrite !app_assoc_s. cbn [append]. rewrite !app_assoc_s. reflexivity.
      * apply mt_more; auto; [exact I|]. inversion T2; subst.
        -- rewrite <- app_assoc_s. apply mt_one; auto. unfold blanks in *. now apply all_app.
        -- rewrite <- app_assoc_s. apply mt_more; auto. unfold blanks in *. now apply all_app.
Qed.

Definition is_number (v : json) : Prop := exists n, v = JNum n.
Lemma blank_follows b r : blanks b -> follows r -> follows (b +++ r).
Proof.
  destruct b as [|c b]; cbn; [auto|]. intros [[->|[->|[->| ->]]] _] _; repeat split; (reflexivity || discriminate).
Qed.
Lemma solid_value v t r : value_text v t -> skip_space (t +++ r) = t +++ r.
Proof. intros T. destruct (value_first _ _ T) as (c & d & -> & J & _). cbn. now rewrite J. Qed.
Lemma solid_string l t r : string_text l t -> skip_space (t +++ r) = t +++ r.
Proof. intros T. now apply (solid_value (JStr l)), vt_string. Qed.
Lemma items_first l t r : items_text l t -> exists c d, skip_space (t +++ r) = String c d /\ c <> "]"%char.
Proof.
  assert (H : forall v b s x, blanks b -> value_text v s -> exists c d, skip_space (b +++ s +++ x) = String c d /\ c <> "]"%char).
  { intros v b s x B T. rewrite (skip_blanks _ _ B), (solid_value _ _ _ T).
    destruct (value_first _ _ T) as (c & d & -> & _ & N & _). cbn. eauto. }
  intros I. inversion I; subst; rewrite !app_assoc_s; eapply H; eauto.
Qed.
Lemma members_first l t r : members_text l t -> exists d, skip_space (t +++ r) = String """" d.
Proof.
  assert (H : forall k b s x, blanks b -> string_text k s -> exists d, skip_space (b +++ s +++ x) = String """" d).
  { intros v b s x B T. rewrite (skip_blanks _ _ B), (solid_string _ _ _ T). inversion T; subst. cbn. eauto. }
  intros I. inversion I; subst; rewrite !app_assoc_s; eapply H; eauto.
Qed.
Lemma string_first k t : string_text k t -> exists d, t = String """" d.
Proof. intros T. inversion T; subst. cbn. eauto. Qed.

Lemma scan_complete :
  (forall v t, value_text v t -> forall fuel r, String.length t <= fuel -> (is_number v -> follows r) ->
     scan fuel (t +++ r) = Some (v, r)) /\
  (forall l t, items_text l t -> forall fuel r, String.length t < fuel ->
     scan_items fuel (skip_space (t +++ String "]" r)) = Some (l, r)) /\
  (forall l t, members_text l t -> forall fuel r, String.length t < fuel ->
     scan_members fuel (skip_space (t +++ String "}" r)) = Some (l, r)).
Proof.
  apply json_mut.
  - intros w W fuel r L _. destruct fuel as [|fuel]; [cbn in W; repeat destruct W as [<-|W]; cbn in L; try lia; destruct W|].
    assert (E := scan_word_complete w r W).
    cbn [In words] in W. repeat destruct W as [<-|W]; try (cbn; reflexivity). destruct W.
  - intros n N fuel r L F. specialize (F (ex_intro _ n eq_refl)).
    assert (E1 := scan_word_number n r N). assert (E2 := scan_number_complete n r N F).
    destruct (number_first _ N) as (c & d & -> & C). destruct fuel as [|fuel]; [cbn in L; lia|].
    cbn [append scan] in *.
    assert (NC : forall x, digit x = false -> x <> "-"%char -> Ascii.eqb c x = false).
    { intros x X1 X2. apply Ascii.eqb_neq. intros ->. destruct C as [C|[C _]]; congruence. }
    rewrite !NC by (reflexivity || discriminate). now rewrite E1, E2.
  - intros l s S fuel r L _. destruct (scan_string_complete _ _ r S) as (t & -> & E).
    destruct fuel as [|fuel]; [cbn in L; lia|]. cbn [append scan]. cbn [Ascii.eqb Bool.eqb]. now rewrite E.
  - intros b B fuel r L _. destruct fuel as [|fuel]; [cbn in L; lia|].
    cbn [append scan]. cbn [Ascii.eqb Bool.eqb]. rewrite app_assoc_s, (skip_blanks _ _ B). reflexivity.
  - intros l s S IH fuel r L _. destruct fuel as [|fuel]; [cbn in L; lia|].
    cbn [append scan]. cbn [Ascii.eqb Bool.eqb]. rewrite app_assoc_s. change ("]" +++ r) with (String "]" r).
    destruct (items_first _ _ (String "]" r) S) as (c & d & E & N). rewrite E.
    apply Ascii.eqb_neq in N. rewrite N. rewrite <- E, IH; [reflexivity|].
    cbn in L. rewrite app_length_s in L. cbn in L. lia.
  - intros b B fuel r L _. destruct fuel as [|fuel]; [cbn in L; lia|].
    cbn [append scan]. cbn [Ascii.eqb Bool.eqb]. rewrite app_assoc_s, (skip_blanks _ _ B). reflexivity.
  - intros l s S IH fuel r L _. destruct fuel as [|fuel]; [cbn in L; lia|].
    cbn [append scan]. cbn [Ascii.eqb Bool.eqb]. rewrite app_assoc_s. change ("}" +++ r) with (String "}" r).
    destruct (members_first _ _ (String "}" r) S) as (d & E). rewrite E. cbn [Ascii.eqb Bool.eqb].
    rewrite <- E, IH; [reflexivity|].
    cbn in L. rewrite app_length_s in L. cbn in L. lia.
  - intros v b1 s b2 B1 V IH B2 fuel r L. rewrite !app_length_s in L. destruct fuel as [|fuel]; [lia|].
    rewrite !app_assoc_s, (skip_blanks _ _ B1), (solid_value _ _ _ V). cbn [scan_items].
    rewrite IH; [|lia|intros _; apply blank_follows; [exact B2|repeat split; (reflexivity || discriminate)]].
    rewrite (skip_blanks _ _ B2). reflexivity.
  - intros v l b1 s b2 t B1 V IH B2 I IHi fuel r L. rewrite !app_length_s in L. destruct fuel as [|fuel]; [lia|].
    rewrite !app_assoc_s, (skip_blanks _ _ B1), (solid_value _ _ _ V). cbn [scan_items].
    rewrite IH; [|lia|intros _; apply blank_follows; [exact B2|repeat split; (reflexivity || discriminate)]].
    rewrite (skip_blanks _ _ B2). cbn [append skip_space]. change (json_space ",") with false. cbv iota.
    cbn [Ascii.eqb Bool.eqb]. rewrite IHi; [reflexivity|]. cbn in L. lia.
  - intros k v b1 ks b2 b3 s b4 B1 K B2 B3 V IH B4 fuel r L. rewrite !app_length_s in L. destruct fuel as [|fuel]; [lia|].
    rewrite !app_assoc_s, (skip_blanks _ _ B1), (solid_string _ _ _ K).
    destruct (scan_string_complete _ _ (b2 +++ ":" +++ b3 +++ s +++ b4 +++ String "}" r) K) as (t & -> & E).
    cbn [append scan_members]. cbn [Ascii.eqb Bool.eqb]. cbn [append] in E. rewrite E.
    rewrite (skip_blanks _ _ B2). cbn [append skip_space]. change (json_space ":") with false. cbv iota.
    cbn [Ascii.eqb Bool.eqb]. rewrite (skip_blanks _ _ B3), (solid_value _ _ _ V).
    rewrite IH; [|lia|intros _; apply blank_follows; [exact B4|repeat split; (reflexivity || discriminate)]].
    rewrite (skip_blanks _ _ B4). reflexivity.
  - intros k v l b1 ks b2 b3 s b4 t B1 K B2 B3 V IH B4 M IHm fuel r L. rewrite !app_length_s in L. destruct fuel as [|fuel]; [lia|].
    rewrite !app_assoc_s, (skip_blanks _ _ B1), (solid_string _ _ _ K).
    destruct (scan_string_complete _ _ (b2 +++ ":" +++ b3 +++ s +++ b4 +++ "," +++ t +++ String "}" r) K) as (u & -> & E).
    cbn [append scan_members]. cbn [Ascii.eqb Bool.eqb]. cbn [append] in E. rewrite E.
    rewrite (skip_blanks _ _ B2). cbn [append skip_space]. change (json_space ":") with false. cbv iota.
    cbn [Ascii.eqb Bool.eqb]. rewrite (skip_blanks _ _ B3), (solid_value _ _ _ V).
    rewrite IH; [|lia|intros _; apply blank_follows; [exact B4|repeat split; (reflexivity || discriminate)]].
    rewrite (skip_blanks _ _ B4). cbn [append skip_space]. change (json_space ",") with false. cbv iota.
    cbn [Ascii.eqb Bool.eqb]. rewrite IHm; [reflexivity|]. cbn in L. lia.
Qed.

(** ** Documents *)
Lemma loads_iff t v : loads t = Ok v <-> document v t.
Proof.
  unfold loads. split.
  - destruct (skip_split t) as (b & E & B & _).
    destruct (scan _ (skip_space t)) as [[v' r]|] eqn:S; [|discriminate].
    apply (proj1 (scan_sound _)) in S. destruct S as (s & Es & V).
    destruct (skip_space r) eqn:R; [|discriminate]. intros [= ->].
    exists b, s, r. rewrite <- Es. split; [exact E|]. split; [exact B|]. split; [exact V|now apply skip_empty].
  - intros (b1 & s & b2 & -> & B1 & V & B2).
    rewrite (skip_blanks _ _ B1), (solid_value _ _ _ V), !app_length_s.
    rewrite (proj1 scan_complete _ _ V).
    + now rewrite (skip_all _ B2).
    + lia.
    + intros _. rewrite <- (app_nil_s b2). now apply blank_follows.
Qed.
Lemma loads_raises t e : loads t = Raise e -> e = ValueError.
Proof.
  unfold loads. destruct (scan _ _) as [[v r]|]; [|now intros [= <-]].
  destruct (skip_space r); [discriminate|now intros [= <-]].
Qed.
Lemma cut_short v v' p q : document v p -> ~ is_number v -> document v' (p +++ q) -> v' = v /\ blanks q.
Proof.
  intros (b1 & s & b2 & -> & B1 & V & B2) N D. apply loads_iff in D. unfold loads in D.
  rewrite !app_assoc_s, (skip_blanks _ _ B1), (solid_value _ _ _ V), !app_length_s in D.
  rewrite (proj1 scan_complete _ _ V) in D; [|lia|tauto].
  rewrite (skip_blanks _ _ B2) in D. destruct (skip_space q) eqn:Q; [|discriminate].
  injection D as <-. split; [reflexivity|now apply skip_empty].
Qed.
