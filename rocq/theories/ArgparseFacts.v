(** * Facts about the argument parser *)
From Coq Require Import Lia.
Require Import Verif.PyBase Verif.Cli Verif.Argparse Verif.SpecArgparse.

(** ** Characters *)
Lemma has_nil c : ~ has c "".
Proof. intros (a & b & E). destruct a; discriminate. Qed.
Lemma has_cons c d s : has c (String d s) <-> c = d \/ has c s.
Proof.
  split.
  - intros (a & b & E). destruct a as [|x a]; cbn in E; injection E as -> E; [now left|right; now exists a, b].
  - intros [-> |(a & b & ->)]; [now exists "", s|now exists (String d a), b].
Qed.
Lemma has_app c a b : has c (a +++ b) <-> has c a \/ has c b.
Proof.
  induction a as [|x a IH]; cbn; [pose proof (has_nil c); tauto|]. rewrite !has_cons, IH. tauto.
Qed.
Lemma blank_iff s : contains_blank s = true <-> has " " s.
Proof.
  induction s as [|c s IH]; cbn; [split; [discriminate|intros H; now destruct (has_nil _ H)]|].
  rewrite orb_true_iff, IH, has_cons, Ascii.eqb_eq. intuition.
Qed.
Lemma app_assoc_a a b c : (a +++ b) +++ c = a +++ b +++ c.
Proof. induction a as [|x a IH]; cbn; [reflexivity|]. now rewrite IH. Qed.
Lemma app_nil_a a : a +++ "" = a.
Proof. induction a as [|x a IH]; cbn; [reflexivity|]. now rewrite IH. Qed.
Lemma split_equals_some s a b : split_equals s = Some (a, b) <-> s = a +++ "=" +++ b /\ ~ has "=" a.
Proof.
  revert a. induction s as [|c s IH]; intros a; cbn.
  - split; [discriminate|]. intros (E & _). destruct a; discriminate.
  - destruct (Ascii.eqb_spec c "=") as [-> |N].
    + split.
      * intros [= <- <-]. split; [reflexivity|apply has_nil].
      * intros (E & H). destruct a as [|x a]; cbn in E; [injection E as ->; reflexivity|]. injection E as <- E. destruct H. apply has_cons. now left.
    + destruct (split_equals s) as [[a' b']|] eqn:S.
      * split.
        -- intros [= <- <-]. destruct (proj1 (IH a') eq_refl) as (-> & H). split; [reflexivity|]. rewrite has_cons. intuition congruence.
        -- intros (E & H). destruct a as [|x a]; cbn in E; injection E as -> E; [congruence|]. rewrite has_cons in H.
           assert (X : Some (a', b') = Some (a, b)) by (apply IH; auto). congruence.
      * split; [discriminate|]. intros (E & H). destruct a as [|x a]; cbn in E; injection E as -> E; [congruence|]. rewrite has_cons in H.
        assert (X : None = Some (a, b)) by (apply IH; auto). congruence.
Qed.
Lemma split_equals_none s : split_equals s = None <-> ~ has "=" s.
Proof.
  split.
  - intros S (a & b & E). revert a E S. induction s as [|c s IH]; intros a E; [destruct a; discriminate|]. cbn. destruct (Ascii.eqb_spec c "=") as [-> |N]; [discriminate|].
    destruct a as [|x a]; cbn in E; injection E as -> E; [congruence|]. destruct (split_equals s) as [[? ?]|]; [discriminate|]. intros _. exact (IH a E eq_refl).
  - intros H. destruct (split_equals s) as [[a b]|] eqn:S; [|reflexivity]. apply split_equals_some in S as (-> & _). destruct H. now exists a, b.
Qed.

(** ** Numbers *)
Definition digit_chars : list ascii := ["0"; "1"; "2"; "3"; "4"; "5"; "6"; "7"; "8"; "9"]%char.
Lemma is_digit_iff c : is_digit c = true <-> In c digit_chars.
Proof.
  assert (E : is_digit c = existsb (Ascii.eqb c) digit_chars) by (destruct c as [[] [] [] [] [] [] [] []]; reflexivity).
  rewrite E, existsb_exists. split; [intros (d & I & D); apply Ascii.eqb_eq in D; now subst|intros I; exists c; split; [exact I|apply Ascii.eqb_refl]].
Qed.
Definition only_digits (d : string) : Prop := forall c, has c d -> In c digit_chars.
Definition starts_no_digit (r : string) : Prop := match r with String c _ => is_digit c = false | EmptyString => True end.
Lemma skip_digits_iff d r : only_digits d -> starts_no_digit r -> skip_digits (d +++ r) = (String.length d, r).
Proof.
  intros D R. induction d as [|c d IH]; cbn.
  - destruct r as [|c r]; [reflexivity|]. cbn in R |- *. now rewrite R.
  - rewrite (proj2 (is_digit_iff c)) by (apply D, has_cons; now left). rewrite IH; [reflexivity|]. intros x H. apply D, has_cons. now right.
Qed.
Lemma skip_digits_split s : exists d r, s = d +++ r /\ only_digits d /\ starts_no_digit r.
Proof.
  induction s as [|c s (d & r & -> & D & R)].
  - exists "", "". repeat split. intros c H. now destruct (has_nil _ H).
  - destruct (is_digit c) eqn:E.
    + exists (String c d), r. repeat split; [|exact R]. intros x H. apply has_cons in H as [-> |H]; [now apply is_digit_iff|auto].
    + exists "", (String c (d +++ r)). repeat split; [|exact E]. intros x H. now destruct (has_nil _ H).
Qed.
Lemma at_end_iff e : at_end e = true <-> e = "" \/ e = String (ascii_of_nat 10) "".
Proof. unfold at_end. rewrite orb_true_iff, !String.eqb_eq. reflexivity. Qed.
Lemma end_no_digit e : e = "" \/ e = String (ascii_of_nat 10) "" -> starts_no_digit e.
Proof. intros [-> | ->]; reflexivity. Qed.
Lemma digits_iff d : digits d <-> 1 <= String.length d /\ only_digits d.
Proof. unfold digits, only_digits. destruct d as [|c d]; cbn; [split; [intros (N & _); congruence|lia]|]. split; intros (_ & H); (split; [discriminate || lia|exact H]). Qed.
Lemma negative_iff w : negative_number w = true <-> number_word w.
Proof.
  unfold negative_number, number_word. split.
  - destruct w as [|c w]; [discriminate|]. destruct (Ascii.eqb_spec c "-") as [-> |N].
    2: { destruct c as [[] [] [] [] [] [] [] []]; try discriminate. congruence. }
    destruct (skip_digits_split w) as (d & r & -> & D & R). rewrite (skip_digits_iff d r D R). intros H. apply orb_true_iff in H as [H|H].
    + apply andb_true_iff in H as (L & E). apply at_end_iff in E. exists r. split; [exact E|]. left. exists d. split; [|reflexivity].
      apply digits_iff. split; [now apply Nat.leb_le|exact D].
    + destruct r as [|c r]; [discriminate|]. destruct (Ascii.eqb_spec c ".") as [-> |N].
      2: { destruct c as [[] [] [] [] [] [] [] []]; try discriminate. congruence. }
      destruct (skip_digits_split r) as (d' & e & -> & D' & R'). rewrite (skip_digits_iff d' e D' R') in H. apply andb_true_iff in H as (L & E).
      apply at_end_iff in E. exists e. split; [exact E|]. right. apply Nat.leb_le in L. destruct d as [|x d].
      * left. exists d'. split; [now apply digits_iff|reflexivity].
      * right. exists (String x d), d'. split; [apply digits_iff; cbn; split; [lia|exact D]|]. split; [now apply digits_iff|reflexivity].
  - intros (e & E & H). pose proof (end_no_digit e E) as R. apply at_end_iff in E. destruct H as [(d & D & ->)|[(d & D & ->)|(d & d' & D & D' & ->)]].
    + apply digits_iff in D as (L & D). cbn. rewrite (skip_digits_iff d e D R). cbv beta iota zeta. rewrite ?E. destruct (String.length d); [lia|reflexivity].
    + apply digits_iff in D as (L & D). cbn. change (is_digit ".") with false. cbv beta iota zeta. rewrite (skip_digits_iff d e D R). cbn. rewrite ?E. destruct (String.length d); [lia|reflexivity].
    + apply digits_iff in D as (L & D). apply digits_iff in D' as (L' & D'). cbn. rewrite (skip_digits_iff d (String "." (d' +++ e)) D eq_refl), (skip_digits_iff d' e D' R). cbv beta iota zeta. rewrite ?E.
      destruct (String.length d'); [lia|]. apply orb_true_r.
Qed.

(** ** Words *)
Fixpoint heads (n : string) : list string :=
  match n with EmptyString => [""] | String c n' => "" :: map (String c) (heads n') end.
Lemma heads_iff s n : In s (heads n) <-> exists q, s +++ q = n.
Proof.
  revert s. induction n as [|c n IH]; intros s; cbn.
  - split; [intros [<- |[]]; now exists ""|]. intros (q & E). destruct s; [now left|discriminate].
  - split.
    + intros [<- |I]; [now exists (String c n)|]. apply in_map_iff in I as (t & <- & I). apply IH in I as (q & <-). now exists q.
    + intros (q & E). destruct s as [|d s]; [now left|]. cbn in E. injection E as -> E. right. apply in_map, IH. now exists q.
Qed.
Lemma heads_dec s n : {exists q, s +++ q = n} + {~ exists q, s +++ q = n}.
Proof. destruct (in_dec string_dec s (heads n)) as [H|H]; rewrite heads_iff in H; auto. Qed.
Lemma prefix_heads s n : String.prefix s n = true <-> exists q, s +++ q = n.
Proof.
  revert n. induction s as [|c s IH]; intros n.
  - split; [now exists n|now destruct n].
  - destruct n as [|d n]; [split; [discriminate|intros (q & E); discriminate]|]. cbn. destruct (ascii_dec c d) as [-> |N].
    + rewrite IH. split; intros (q & E); exists q; [cbn; now f_equal|now injection E].
    + split; [discriminate|]. intros (q & E). injection E as E _. congruence.
Qed.

Definition act (n : setting) : action := match n with Command => CommandInvocation | Destination => SaveTo end.
Ltac each_head S :=
  let N := fresh in destruct S as (N & S); apply heads_iff in S; vm_compute in S;
  repeat (destruct S as [<- |S]; [try congruence|]); try contradiction; clear N.
Lemma set_word w n : abbreviates w n -> exists o, parse_optional w = Done (Some (Some (act n), o, None)).
Proof. intros (s & S & ->). destruct n; each_head S; eexists; vm_compute; reflexivity. Qed.
Lemma assigned_word w n v : abbreviates w n -> exists o, parse_optional (w +++ "=" +++ v) = Done (Some (Some (act n), o, Some v)).
Proof. intros (s & S & ->). destruct n; each_head S; eexists; reflexivity. Qed.
Lemma help_long s : short s "help" -> parse_optional ("--" +++ s) = Done (Some (Some Help, "--help", None)).
Proof. intros S. each_head S; reflexivity. Qed.
Lemma help_assigned s v : short s "help" -> parse_optional ("--" +++ s +++ "=" +++ v) = Done (Some (Some Help, "--help", Some v)).
Proof. intros S. each_head S; reflexivity. Qed.
Lemma ambiguous_word r : parse_optional ("--=" +++ r) = Exit 2.
Proof. reflexivity. Qed.
Lemma h_assigned v : parse_optional ("-h=" +++ v) = Done (Some (Some Help, "-h", Some v)).
Proof. reflexivity. Qed.
Lemma h_rest c s : c <> "="%char -> parse_optional ("-h" +++ String c s) = Done (Some (Some Help, "-h", Some (String c s))).
Proof.
  intros N. unfold parse_optional. cbn [append dict_find option_string_actions String.eqb Ascii.eqb Bool.eqb negb andb split_equals].
  destruct (Ascii.eqb_spec c "=") as [E|_]; [contradiction|]. destruct (split_equals s) as [[a b]|]; reflexivity.
Qed.
Definition names : list string := ["help"; "command_invocation"; "save_to"].
Definition left_over (w : string) : outcome (option option_tuple) :=
  if negative_number w then Done None else if contains_blank w then Done None else Done (Some (None, w, None)).
(** A long word that is no abbreviation *)
Lemma no_long p : (forall q n, In n names -> p +++ q <> n) -> forall e : option string, let w := "--" +++ p in
  dict_find option_string_actions w = None /\
  flat_map (fun '(o, a) => if String.prefix w o then [(Some a, o, e)] else []) option_string_actions = [].
Proof.
  intros H e w.
  assert (F : forall n, In n names -> String.prefix w ("--" +++ n) = false).
  { intros n I. destruct (String.prefix w ("--" +++ n)) eqn:P; [|reflexivity]. apply prefix_heads in P as (q & P). unfold w in P. cbn in P. injection P as P. now destruct (H q n I). }
  assert (G : forall n, In n names -> String.eqb w ("--" +++ n) = false).
  { intros n I. apply String.eqb_neq. unfold w. intros E. cbn in E. injection E as E. apply (H "" n I). now rewrite app_nil_a. }
  pose proof (F "help" ltac:(cbn; auto)) as F1. pose proof (F "command_invocation" ltac:(cbn; auto)) as F2. pose proof (F "save_to" ltac:(cbn; auto)) as F3.
  pose proof (G "help" ltac:(cbn; auto)) as G1. pose proof (G "command_invocation" ltac:(cbn; auto)) as G2. pose proof (G "save_to" ltac:(cbn; auto)) as G3.
  cbn [append] in F1, F2, F3, G1, G2, G3. unfold option_string_actions. cbn [dict_find flat_map].
  rewrite G1, G2, G3, F1, F2, F3. unfold w. cbn [append]. split; reflexivity.
Qed.

Lemma long_word p : p <> "" -> (forall s q n, In n names -> s +++ q = n -> p <> s) -> (forall s q n r, In n names -> s +++ q = n -> p <> s +++ "=" +++ r) ->
  parse_optional ("--" +++ p) = left_over ("--" +++ p).
Proof.
  intros N H J. unfold parse_optional. cbn [append].
  assert (H0 : forall q n, In n names -> p +++ q <> n) by (intros q n I E; exact (H p q n I E eq_refl)).
  destruct (no_long p H0 None) as (D & _). cbn [append] in D.
  change (negb ("-" =? "-")%char) with false. cbn match. rewrite D. cbn [String.eqb].
  destruct (split_equals (String "-" (String "-" p))) as [[a b]|] eqn:S.
  - pose proof S as S'. apply split_equals_some in S as (E & A).
    assert (X : exists a', a = "--" +++ a' /\ p = a' +++ "=" +++ b).
    { destruct a as [|x [|y a]]; cbn in E; try discriminate E. injection E as <- <- E. now exists a. }
    destruct X as (a' & -> & P). assert (H1 : forall q n, In n names -> a' +++ q <> n) by (intros q n I X; exact (J a' q n b I X P)).
    destruct (no_long a' H1 (Some b)) as (D' & F). rewrite D'. unfold get_option_tuples. rewrite S'. rewrite F. reflexivity.
  - destruct (no_long p H0 None) as (_ & F). unfold get_option_tuples. rewrite S. cbn [append] in F. rewrite F. reflexivity.
Qed.
Lemma short_word c s : c <> "-"%char -> c <> "h"%char -> parse_optional (String "-" (String c s)) = left_over (String "-" (String c s)).
Proof.
  intros N H.
  assert (D : forall k t, In k ["-h"; "--help"; "--command_invocation"; "--save_to"] -> String.eqb (String "-" (String c t)) k = false).
  { intros k t I. apply String.eqb_neq. intros <-. cbn in I. repeat (destruct I as [I|I]; [injection I; intros; congruence|]). exact I. }
  assert (F : forall t, dict_find option_string_actions (String "-" (String c t)) = None).
  { intros t. unfold option_string_actions. cbn [dict_find]. rewrite !D by (cbn; tauto). reflexivity. }
  assert (P : forall k, In k ["-h"; "--help"; "--command_invocation"; "--save_to"] -> String.prefix (String "-" (String c s)) k = false).
  { intros k I. destruct (String.prefix _ k) eqn:P; [|reflexivity]. apply prefix_heads in P as (q & P). subst k. cbn in I. repeat (destruct I as [I|I]; [injection I; intros; congruence|]). destruct I. }
  unfold parse_optional. change (negb ("-" =? "-")%char) with false. cbn match. rewrite F. change (String.eqb (String c s) "") with false. cbn match.
  assert (S : match split_equals (String "-" (String c s)) with
              | Some (o, e) => match dict_find option_string_actions o with Some a => Some (Some a, o, Some e) | None => None end
              | None => None end = None).
  { destruct (split_equals (String "-" (String c s))) as [[a b]|] eqn:S; [|reflexivity]. apply split_equals_some in S as (E & _).
    destruct a as [|x [|y a]]; cbn in E; [discriminate E| |].
    - injection E as <- -> _. reflexivity.
    - injection E as <- <- _. now rewrite F. }
  rewrite S. assert (T : get_option_tuples (String "-" (String c s)) = []).
  { unfold get_option_tuples. transitivity (flat_map (fun '(o, a) =>
        if String.eqb o (String "-" (one_char c)) then [(Some a, o, Some s)]
        else if String.prefix (String "-" (String c s)) o then [(Some a, o, None)] else []) option_string_actions).
    { destruct c as [[] [] [] [] [] [] [] []]; try reflexivity. congruence. }
    unfold option_string_actions. cbn [flat_map]. rewrite !P by (cbn; tauto). unfold one_char. rewrite !(String.eqb_sym _ (String "-" (String c ""))), !D by (cbn; tauto). reflexivity. }
  rewrite T. reflexivity.
Qed.

(** The status with which help, with or without an argument in the same word, ends *)
Definition help_status (o : string) (e : option string) : nat :=
  match e with
  | None => 0
  | Some e => if String.eqb o "-h" && negb (String.eqb e "") then help_bundle e else 2
  end.
Inductive seen (w : string) : outcome (option option_tuple) -> Prop :=
| seen_plain : plain w -> seen w (Done None)
| seen_set n o : abbreviates w n -> seen w (Done (Some (Some (act n), o, None)))
| seen_assigned p n v o : abbreviates p n -> w = p +++ "=" +++ v -> seen w (Done (Some (Some (act n), o, Some v)))
| seen_help o e : option_like w -> (help_word w <-> help_status o e = 0) -> seen w (Done (Some (Some Help, o, e)))
| seen_unknown : unknown w -> seen w (Done (Some (None, w, None)))
| seen_ambiguous r : w = "--=" +++ r -> seen w (Exit 2).

Lemma name_no_equals s q n : In n names -> s +++ q = n -> ~ has "=" s.
Proof.
  intros I E H. assert (F : ~ has "=" n).
  { assert (B : split_equals n = None) by (destruct I as [<- |[<- |[<- |[]]]]; reflexivity). now apply split_equals_none. }
  apply F. rewrite <- E. apply has_app. now left.
Qed.
Lemma left_over_seen w s : s <> "" -> w = "-" +++ s -> (forall r, w <> "-h" +++ r) -> (forall s q n, In n names -> s +++ q = n -> w <> "--" +++ s) ->
  (forall s q n r, In n names -> s +++ q = n -> w <> "--" +++ s +++ "=" +++ r) -> seen w (left_over w).
Proof.
  intros N E H L A. unfold left_over. destruct (negative_number w) eqn:Q; [|destruct (contains_blank w) eqn:B].
  - apply seen_plain. intros [r X|s' q n I X Y|s' q n r I X Y|s' X Y Z T]; [exact (H r X)|exact (L _ _ _ I X Y)|exact (A _ _ _ _ I X Y)|]. apply T. now apply negative_iff.
  - apply seen_plain. intros [r X|s' q n I X Y|s' q n r I X Y|s' X Y Z T]; [exact (H r X)|exact (L _ _ _ I X Y)|exact (A _ _ _ _ I X Y)|]. apply Z. now apply blank_iff.
  - apply seen_unknown. apply (unknown_option w s); auto.
    + intros X. apply blank_iff in X. congruence.
    + intros X. apply negative_iff in X. congruence.
Qed.
Lemma all_h_bundle e : e <> "" -> (help_bundle e = 0 <-> all_h e).
Proof.
  intros N. unfold all_h. assert (X : help_bundle e = 0 <-> forall c, has c e -> c = "h"%char).
  { clear N. induction e as [|c e IH]; cbn; [split; [intros _ c H; now destruct (has_nil _ H)|reflexivity]|].
    destruct (Ascii.eqb_spec c "h") as [-> |N].
    - rewrite IH. split; intros H d; [rewrite has_cons; intros [-> |X]; auto|intros X; apply H, has_cons; now right].
    - split; [discriminate|]. intros H. destruct N. apply H, has_cons. now left. }
  rewrite X. tauto.
Qed.
Lemma no_long_h r : forall s, "-h" +++ r <> "--" +++ s.
Proof. intros s. discriminate. Qed.
Lemma helps_short e : e <> "" -> (help_word ("-h" +++ e) <-> all_h e \/ exists v, e = "=" +++ v /\ all_h v).
Proof.
  intros N. split.
  - intros [s S E|s S E|s S E].
    + discriminate E.
    + cbn in E. injection E as <-. left. destruct S as (_ & S). split; [exact N|]. intros c H. apply S, has_cons. now right.
    + cbn in E. injection E as ->. right. now exists s.
  - intros [(_ & H)|(v & -> & H)].
    + apply (hw_short _ (String "h" e)); [|reflexivity]. split; [discriminate|]. intros c X. apply has_cons in X as [-> |X]; auto.
    + now apply (hw_assigned _ v).
Qed.
Lemma assigned_no_help s r : ~ help_word ("--" +++ s +++ "=" +++ r).
Proof.
  intros [t (_ & q & T) E|t (_ & T) E|t T E].
  - cbn in E. injection E as E. apply (name_no_equals t q "help"); [cbn; auto|exact T|]. rewrite <- E. exists s, r. reflexivity.
  - cbn in E. injection E as E. assert (X : has "-" t) by (exists "", (s +++ "=" +++ r); now symmetry). apply T in X. discriminate.
  - discriminate.
Qed.
Lemma help_status_some e : e <> "" -> help_status "-h" (Some e) = help_bundle e.
Proof. intros N. unfold help_status. rewrite (proj2 (String.eqb_neq e "") N). reflexivity. Qed.
Lemma seen_word w : w <> "--" -> seen w (parse_optional w).
Proof.
  intros ND. destruct w as [|c w].
  { apply seen_plain. intros [r X|s q n I X Y|s q n r I X Y|s X Y Z T]; discriminate. }
  destruct (Ascii.eqb_spec c "-") as [-> |N].
  2: { assert (E : parse_optional (String c w) = Done None) by (cbn; rewrite (proj2 (Ascii.eqb_neq c "-") N); reflexivity). rewrite E.
       apply seen_plain. intros [r X|s q n I X Y|s q n r I X Y|s X Y Z T]; cbn in *; congruence. }
  destruct w as [|c w].
  { apply seen_plain. intros [r X|s q n I X Y|s q n r I X Y|s X Y Z T]; try discriminate. cbn in Y. congruence. }
  destruct (Ascii.eqb_spec c "-") as [-> |N].
  - assert (NE : w <> "") by congruence. clear ND. change (String "-" (String "-" w)) with ("--" +++ w).
    assert (D : (exists n, In n names /\ exists q, w +++ q = n) \/ ~ exists n, In n names /\ exists q, w +++ q = n).
    { destruct (heads_dec w "help") as [H|H]; [left; exists "help"; split; [cbn; auto|exact H]|].
      destruct (heads_dec w "command_invocation") as [J|J]; [left; exists "command_invocation"; split; [cbn; auto|exact J]|].
      destruct (heads_dec w "save_to") as [K|K]; [left; exists "save_to"; split; [cbn; auto|exact K]|].
      right. intros (n & [<- |[<- |[<- |[]]]] & X); tauto. }
    destruct D as [(n & [<- |[<- |[<- |[]]]] & X)|D].
    + rewrite help_long by (split; auto). apply seen_help.
      * destruct X as (q & X). apply (ol_name _ w q "help"); [cbn; auto|exact X|reflexivity].
      * split; [reflexivity|]. intros _. apply (hw_long _ w); [split; auto|reflexivity].
    + assert (A : abbreviates ("--" +++ w) Command) by (exists w; split; [split; auto|reflexivity]). destruct (set_word _ _ A) as (o & ->). now apply seen_set.
    + assert (A : abbreviates ("--" +++ w) Destination) by (exists w; split; [split; auto|reflexivity]). destruct (set_word _ _ A) as (o & ->). now apply seen_set.
    + assert (D' : (exists s r n q, In n names /\ s +++ q = n /\ w = s +++ "=" +++ r) \/ ~ exists s r n q, In n names /\ s +++ q = n /\ w = s +++ "=" +++ r).
      { destruct (split_equals w) as [[a b]|] eqn:S.
        - assert (U : forall s r n q, In n names -> s +++ q = n -> w = s +++ "=" +++ r -> a = s).
          { intros s r n q I E W. assert (Y : split_equals w = Some (s, r)) by (apply split_equals_some; split; [exact W|exact (name_no_equals _ _ _ I E)]). congruence. }
          apply split_equals_some in S as (W & _).
          destruct (heads_dec a "help") as [(q & H)|H]; [left; exists a, b, "help", q; cbn; auto|].
          destruct (heads_dec a "command_invocation") as [(q & J)|J]; [left; exists a, b, "command_invocation", q; cbn; auto|].
          destruct (heads_dec a "save_to") as [(q & K)|K]; [left; exists a, b, "save_to", q; cbn; auto|].
          right. intros (s & r & n & q & I & E & W'). rewrite (U _ _ _ _ I E W') in *. destruct I as [<- |[<- |[<- |[]]]]; eauto.
        - right. intros (s & r & n & q & I & E & W). apply split_equals_none in S. apply S. now exists s, r. }
      destruct D' as [(s & r & n & q & I & E & W)|D'].
      * destruct (string_dec s "") as [-> |NS]; [rewrite W; apply (seen_ambiguous _ r); reflexivity|]. rewrite W.
        destruct I as [<- |[<- |[<- |[]]]].
        -- rewrite help_assigned by (split; eauto). apply seen_help; [apply (ol_assigned _ s q "help" r); [cbn; auto|exact E|reflexivity]|].
           split; [intros H; now destruct (assigned_no_help s r)|discriminate].
        -- assert (A : abbreviates ("--" +++ s) Command) by (exists s; split; [split; eauto|reflexivity]). destruct (assigned_word _ _ r A) as (o & X).
           rewrite app_assoc_a in X. rewrite X. apply (seen_assigned _ ("--" +++ s) Command r o A). now rewrite app_assoc_a.
        -- assert (A : abbreviates ("--" +++ s) Destination) by (exists s; split; [split; eauto|reflexivity]). destruct (assigned_word _ _ r A) as (o & X).
           rewrite app_assoc_a in X. rewrite X. apply (seen_assigned _ ("--" +++ s) Destination r o A). now rewrite app_assoc_a.
      * rewrite long_word.
        -- apply (left_over_seen _ (String "-" w)); [discriminate|reflexivity|discriminate| |].
           ++ intros s q n I E X. injection X as X. apply D. exists n. split; [exact I|]. exists q. now subst.
           ++ intros s q n r I E X. injection X as X. apply D'. now exists s, r, n, q.
        -- exact NE.
        -- intros s q n I E X. apply D. exists n. split; [exact I|]. exists q. now subst.
        -- intros s q n r I E X. apply D'. now exists s, r, n, q.
  - destruct (Ascii.eqb_spec c "h") as [-> |H].
    + change (String "-" (String "h" w)) with ("-h" +++ w). assert (O : option_like ("-h" +++ w)) by now apply (ol_help _ w).
      destruct w as [|d w].
      { apply seen_help; [exact O|]. split; [reflexivity|]. intros _. apply (hw_short _ "h"); [|reflexivity]. split; [discriminate|].
        intros c H. apply has_cons in H as [-> |H]; [reflexivity|now destruct (has_nil _ H)]. }
      assert (NE : String d w <> "") by discriminate. destruct (Ascii.eqb_spec d "=") as [-> |ND'].
      * change ("-h" +++ String "=" w) with ("-h=" +++ w) in *. rewrite h_assigned. apply seen_help; [exact O|]. change ("-h=" +++ w) with ("-h" +++ String "=" w). rewrite (helps_short _ NE). destruct w as [|x w].
        -- cbn. split; [|discriminate]. intros [(_ & A)|(v & E & (A & _))]; [|injection E as <-; congruence].
           assert (X : has "=" "=") by (exists "", ""; reflexivity). apply A in X. discriminate.
        -- rewrite help_status_some, all_h_bundle by discriminate. split.
           ++ intros [(_ & A)|(v & E & A)]; [|injection E as ->; exact A]. assert (X : has "=" (String "=" (String x w))) by (apply has_cons; now left). apply A in X. discriminate.
           ++ intros A. right. now exists (String x w).
      * rewrite (h_rest d w ND'). apply seen_help; [exact O|]. rewrite (helps_short _ NE). rewrite help_status_some, all_h_bundle by discriminate. split; [|auto]. intros [A|(v & E & _)]; [exact A|]. injection E as -> _. congruence.
    + rewrite short_word by assumption. apply (left_over_seen _ (String c w)); [discriminate|reflexivity| | |]; intros; cbn; congruence.
Qed.

Lemma in_names n : In (name_of n) names.
Proof. destruct n; cbn; auto. Qed.
Lemma abbreviates_like w n : abbreviates w n -> option_like w.
Proof. intros (s & (_ & q & E) & ->). apply (ol_name _ s q (name_of n)); [apply in_names|exact E|reflexivity]. Qed.
Lemma assigned_like w n v : abbreviates w n -> option_like (w +++ "=" +++ v).
Proof. intros (s & (_ & q & E) & ->). apply (ol_assigned _ s q (name_of n) v); [apply in_names|exact E|now rewrite app_assoc_a]. Qed.
Lemma unknown_like w : unknown w -> option_like w.
Proof. intros [s N E B M _ _ _]. now apply (ol_unknown w s). Qed.
Lemma dash_like : option_like "--".
Proof. apply (ol_name _ "" "help" "help"); [cbn; auto|reflexivity|reflexivity]. Qed.
Lemma abbreviates_no_dash w n : abbreviates w n -> w <> "--".
Proof. intros (s & (N & _) & ->) E. cbn in E. congruence. Qed.
Lemma assigned_no_dash w n v : abbreviates w n -> w +++ "=" +++ v <> "--".
Proof. intros (s & (N & _) & ->) E. rewrite app_assoc_a in E. destruct s; discriminate. Qed.
Lemma plain_word w : plain w -> w <> "--" /\ parse_optional w = Done None.
Proof.
  intros P. assert (N : w <> "--") by (intros ->; exact (P dash_like)). split; [exact N|]. pose proof (seen_word w N) as S. destruct S as [_|n o A|p n v o A E|o e O _|U|r E]; [reflexivity|..]; destruct P.
  - exact (abbreviates_like _ _ A).
  - rewrite E. exact (assigned_like _ _ _ A).
  - exact O.
  - exact (unknown_like _ U).
  - apply (ol_assigned _ "" "help" "help" r); [cbn; auto|reflexivity|exact E].
Qed.
Lemma unknown_word w : unknown w -> w <> "--" /\ parse_optional w = Done (Some (None, w, None)).
Proof.
  intros [s N E B M H L A].
  assert (X : left_over w = Done (Some (None, w, None))).
  { unfold left_over. destruct (negative_number w) eqn:Q; [now apply negative_iff in Q|]. destruct (contains_blank w) eqn:Q'; [now apply blank_iff in Q'|]. reflexivity. }
  assert (ND : w <> "--") by exact (L "" "help" "help" (or_introl eq_refl) eq_refl). split; [exact ND|]. rewrite <- X. subst w.
  destruct s as [|c s]; [congruence|]. cbn [append] in *. destruct (Ascii.eqb_spec c "-") as [-> |Nc].
  - apply (long_word s); [congruence|intros t q n I T ->; exact (L t q n I T eq_refl)|intros t q n r I T ->; exact (A t q n r I T eq_refl)].
  - apply short_word; [exact Nc|]. intros ->. exact (H s eq_refl).
Qed.
Lemma help_words w : help_word w -> w <> "--" /\ exists o e, parse_optional w = Done (Some (Some Help, o, e)) /\ help_status o e = 0.
Proof.
  intros H. assert (ND : w <> "--").
  { intros ->. destruct H as [s (N & _) E|s (_ & A) E|s A E]; [cbn in E; congruence| |discriminate]. cbn in E. injection E as <-. specialize (A "-"%char (ex_intro _ "" (ex_intro _ "" eq_refl))). discriminate. }
  split; [exact ND|]. assert (X : exists o e, parse_optional w = Done (Some (Some Help, o, e))).
  { destruct H as [s S ->|s (N & A) ->|s A ->].
    - rewrite help_long by exact S. eauto.
    - destruct s as [|c s]; [congruence|]. assert (E : c = "h"%char) by (apply A, has_cons; now left). subst c. destruct s as [|d s]; [cbn; eauto|].
      assert (E : d = "h"%char) by (apply A, has_cons; right; apply has_cons; now left). subst d. change ("-" +++ String "h" (String "h" s)) with ("-h" +++ String "h" s).
      rewrite h_rest by discriminate. eauto.
    - rewrite h_assigned. eauto. }
  destruct X as (o & e & X). exists o, e. split; [exact X|]. pose proof (seen_word w ND) as S. rewrite X in S. inversion S as [| n' o' A' E'| p' n' v' o' A' W' E'|o' e' O' F' E'| |].
  - destruct n'; discriminate.
  - destruct n'; discriminate.
  - now apply F'.
Qed.

(** ** Lists of words *)
Definition run (argv : list string) (ns : namespace) : outcome namespace := obind (classify argv) (fun l => consume l ns).
Lemma classify_cases argv : (classify argv = Exit 2 /\ ambiguous argv) \/ (exists l, classify argv = Done l /\ ~ ambiguous argv).
Proof.
  induction argv as [|w ws IH].
  - right. exists []. split; [reflexivity|]. intros (a & r & b & E & _). destruct a; discriminate.
  - cbn [classify]. destruct (String.eqb_spec w "--") as [-> |N].
    + right. eexists. split; [reflexivity|]. intros (a & r & b & E & D). destruct a as [|x a]; [discriminate|]. injection E as <- _. destruct D. now left.
    + assert (X : ambiguous (w :: ws) <-> (exists r, w = "--=" +++ r) \/ ambiguous ws).
      { split.
        - intros (a & r & b & E & D). destruct a as [|x a]; cbn in E; injection E as E1 E2; [left; now exists r|]. right. exists a, r, b. split; [exact E2|]. intros I. apply D. now right.
        - intros [(r & ->)|(a & r & b & -> & D)]; [now exists [], r, ws|]. exists (w :: a), r, b. split; [reflexivity|]. intros [I|I]; [congruence|contradiction]. }
      assert (Y : forall r, w = "--=" +++ r -> parse_optional w = Exit 2) by (intros r ->; reflexivity).
      pose proof (seen_word w N) as S. destruct (parse_optional w) as [t|n].
      * cbn [obind]. destruct IH as [(-> & A)|(l & -> & A)]; [left; split; [reflexivity|tauto]|]. right. eexists. split; [reflexivity|].
        rewrite X. intros [(r & E)|B]; [specialize (Y r E); discriminate|contradiction].
      * inversion S as [| | | | |r E]; subst. left. split; [reflexivity|]. apply X. eauto.
Qed.
Lemma run_nil ns : run [] ns = Done ns.
Proof. reflexivity. Qed.
Lemma run_ambiguous argv ns : ambiguous argv -> run argv ns = Exit 2.
Proof. intros A. unfold run. destruct (classify_cases argv) as [(-> & _)|(l & _ & N)]; [reflexivity|contradiction]. Qed.
Fixpoint extras (ws : list string) (ns : namespace) : namespace := match ws with [] => ns | w :: ws => extras ws (extra w ns) end.
Lemma run_dash ws ns : run ("--" :: ws) ns = Done (extras ("--" :: ws) ns).
Proof. unfold run. cbn. generalize (extra "--" ns). induction ws as [|w ws IH]; intros ns'; [reflexivity|]. cbn. apply IH. Qed.
Lemma run_extra w ws ns t : w <> "--" -> parse_optional w = Done t -> (t = None \/ exists o e, t = Some (None, o, e)) -> run (w :: ws) ns = run ws (extra w ns).
Proof.
  intros N P T. unfold run. cbn [classify]. rewrite (proj2 (String.eqb_neq w "--") N), P. cbn [obind]. destruct (classify ws) as [l|n]; [|reflexivity].
  cbn [obind]. destruct T as [-> |(o & e & ->)]; reflexivity.
Qed.
Lemma run_assigned w ws ns n o v : w <> "--" -> parse_optional w = Done (Some (Some (act n), o, Some v)) -> run (w :: ws) ns = run ws (store (act n) v ns).
Proof.
  intros N P. unfold run. cbn [classify]. rewrite (proj2 (String.eqb_neq w "--") N), P. cbn [obind]. destruct (classify ws) as [l|m]; [|reflexivity].
  destruct n; reflexivity.
Qed.
Lemma run_set w v ws ns n o : w <> "--" -> parse_optional w = Done (Some (Some (act n), o, None)) -> plain v -> run (w :: v :: ws) ns = run ws (store (act n) v ns).
Proof.
  intros N P V. apply plain_word in V as (N' & V). unfold run. cbn [classify]. rewrite (proj2 (String.eqb_neq w "--") N), (proj2 (String.eqb_neq v "--") N'), P, V.
  cbn [obind]. destruct (classify ws) as [l|m]; [|reflexivity]. destruct n; reflexivity.
Qed.
Lemma run_missing w ws ns n o : w <> "--" -> parse_optional w = Done (Some (Some (act n), o, None)) -> (forall v ws', ws = v :: ws' -> ~ plain v) -> run (w :: ws) ns = Exit 2.
Proof.
  intros N P V. unfold run. cbn [classify]. rewrite (proj2 (String.eqb_neq w "--") N), P.
  cbn [obind]. destruct (classify_cases ws) as [(C & _)|(l & C & _)]; rewrite C; [reflexivity|]. cbn [obind]. destruct ws as [|v ws].
  - injection C as <-. destruct n; reflexivity.
  - cbn [classify] in C. destruct (String.eqb_spec v "--") as [-> |N']; [injection C as <-; destruct n; reflexivity|].
    pose proof (seen_word v N') as S. destruct (parse_optional v) as [[t|]|]; [| |discriminate C].
    + cbn [obind] in C. destruct (classify ws); [|discriminate]. injection C as <-. destruct n; reflexivity.
    + inversion S. destruct (V v ws eq_refl). assumption.
Qed.
Lemma run_help w ws ns o e : w <> "--" -> parse_optional w = Done (Some (Some Help, o, e)) ->
  run (w :: ws) ns = match classify ws with Exit n => Exit n | Done _ => Exit (help_status o e) end.
Proof.
  intros N P. unfold run. cbn [classify]. rewrite (proj2 (String.eqb_neq w "--") N), P. cbn [obind]. destruct (classify ws) as [l|n]; [|reflexivity].
  cbn [obind consume]. destruct e; [|reflexivity]. cbn [help_status]. destruct (_ && _); reflexivity.
Qed.
Lemma status_cases o e : help_status o e = 0 \/ help_status o e = 2.
Proof.
  destruct e as [e|]; [|now left]. cbn. destruct (_ && _); [|now right]. induction e as [|c e IH]; [now left|]. cbn. destruct (Ascii.eqb c "h"); auto.
Qed.

(** ** What is read *)
Definition value_of (x : option string) : value := match x with Some s => Text s | None => NoText end.
Definition put (ns : namespace) (p : setting * option string) : namespace :=
  match fst p with
  | Command => mkNamespace (Some (value_of (snd p))) (ns_save ns) (ns_extras ns)
  | Destination => mkNamespace (ns_command ns) (Some (value_of (snd p))) (ns_extras ns)
  end.
Lemma given_value v x : given v x <-> get_value v = value_of x.
Proof.
  unfold get_value. split.
  - intros [|v' N]; [reflexivity|]. now rewrite (proj2 (String.eqb_neq v' "--") N).
  - destruct (String.eqb_spec v "--") as [-> |N]; destruct x as [s|]; try discriminate; [constructor|]. intros [= ->]. now constructor.
Qed.
Lemma store_put n v x ns : get_value v = value_of x -> store (act n) v ns = put ns (n, x).
Proof. intros E. destruct n; unfold put; cbn; now rewrite E. Qed.
Lemma plain_value v : plain v -> get_value v = value_of (Some v).
Proof. intros P. apply given_value. constructor. intros ->. exact (P dash_like). Qed.
Lemma settings_run argv ss : settings argv ss -> forall ns, run argv ns = Done (fold_left put ss ns).
Proof.
  induction 1 as [|w n v x ws ss A G _ IH|w n v ws ss A P _ IH]; intros ns; [reflexivity|..]; cbn [fold_left].
  - destruct (assigned_word _ _ v A) as (o & E). rewrite (run_assigned _ _ _ _ _ _ (assigned_no_dash _ _ v A) E), IH. f_equal. f_equal. now apply store_put, given_value.
  - destruct (set_word _ _ A) as (o & E). rewrite (run_set _ _ _ _ _ _ (abbreviates_no_dash _ _ A) E P), IH. f_equal. f_equal. now apply store_put, plain_value.
Qed.
Lemma extras_grow argv ns ns' : run argv ns = Done ns' -> exists l, ns_extras ns' = ns_extras ns ++ l.
Proof.
  unfold run. destruct (classify argv) as [l|]; [|discriminate]. cbn [obind].
  assert (G : forall m l, length l <= m -> forall ns, consume l ns = Done ns' -> exists x, ns_extras ns' = ns_extras ns ++ x).
  { clear. induction m as [|m IH]; intros [|[w k] l] L ns; cbn in L; try lia; cbn [consume]; try (intros [= ->]; exists []; now rewrite app_nil_r).
    assert (E : forall w, consume l (extra w ns) = Done ns' -> exists x, ns_extras ns' = ns_extras ns ++ x).
    { intros w' C. apply IH in C as (x & ->); [|lia]. exists (w' :: x). cbn. now rewrite <- app_assoc. }
    destruct k as [| |[[[[| |]|] o] e]]; try (apply E); destruct e as [e|]; try discriminate; try (destruct (_ && _); discriminate); try apply E.
    - intros C. apply IH in C as (x & ->); [|lia]. now exists x.
    - destruct l as [|[v [| |]] l]; try discriminate. intros C. apply IH in C as (x & ->); [|cbn in L; lia]. now exists x.
    - intros C. apply IH in C as (x & ->); [|lia]. now exists x.
    - destruct l as [|[v [| |]] l]; try discriminate. intros C. apply IH in C as (x & ->); [|cbn in L; lia]. now exists x. }
  intros C. exact (G _ l (le_n _) ns C).
Qed.
Lemma plain_dec w : {plain w} + {~ plain w}.
Proof.
  destruct (string_dec w "--") as [-> |N]; [right; intros P; exact (P dash_like)|]. pose proof (seen_word w N) as S.
  destruct (parse_optional w) as [[t|]|n] eqn:E.
  - right. intros P. apply plain_word in P as (_ & P). congruence.
  - left. now inversion S.
  - right. intros P. apply plain_word in P as (_ & P). congruence.
Qed.
(** Every list of words, one step *)
Inductive step (ns : namespace) : list string -> outcome namespace -> Prop :=
| step_nil : step ns [] (Done ns)
| step_dash ws : step ns ("--" :: ws) (Done (extras ("--" :: ws) ns))
| step_plain w ws : plain w -> step ns (w :: ws) (run ws (extra w ns))
| step_unknown w ws : unknown w -> step ns (w :: ws) (run ws (extra w ns))
| step_assigned w n v ws : abbreviates w n -> step ns ((w +++ "=" +++ v) :: ws) (run ws (store (act n) v ns))
| step_set w n v ws : abbreviates w n -> plain v -> step ns (w :: v :: ws) (run ws (store (act n) v ns))
| step_missing w n ws : abbreviates w n -> (forall v ws', ws = v :: ws' -> ~ plain v) -> step ns (w :: ws) (Exit 2)
| step_ambiguous argv : ambiguous argv -> step ns argv (Exit 2)
| step_help w ws : help_word w -> ~ ambiguous (w :: ws) -> step ns (w :: ws) (Exit 0)
| step_no_help w ws : option_like w -> ~ help_word w -> step ns (w :: ws) (Exit 2).
Lemma steps argv ns : step ns argv (run argv ns).
Proof.
  destruct (classify_cases argv) as [(_ & A)|(l & C & A)]; [rewrite (run_ambiguous _ ns A); now constructor|].
  destruct argv as [|w ws]; [constructor|]. destruct (string_dec w "--") as [-> |N]; [rewrite run_dash; constructor|].
  pose proof (seen_word w N) as S. destruct (parse_optional w) as [t|n] eqn:P.
  2: { exfalso. apply A. inversion S as [| | | | |r E]; subst. now exists [], r, ws. }
  inversion S as [V E|n o V E|p n v o V W E|o e V F E|V E|]; subst t.
  - rewrite (run_extra w ws ns None N P (or_introl eq_refl)). now apply step_plain.
  - destruct ws as [|v ws].
    + rewrite (run_missing w [] ns n o N P) by discriminate. apply (step_missing ns w n); [exact V|discriminate].
    + destruct (plain_dec v) as [Q|Q].
      * rewrite (run_set w v ws ns n o N P Q). now apply step_set.
      * assert (Q' : forall v' ws', v :: ws = v' :: ws' -> ~ plain v') by (intros v' ws' [= <- <-]; exact Q).
        rewrite (run_missing w (v :: ws) ns n o N P Q'). now apply (step_missing ns w n).
  - rewrite (run_assigned w ws ns n o v N P). subst w. now apply step_assigned.
  - rewrite (run_help w ws ns o e N P). cbn [classify] in C. rewrite (proj2 (String.eqb_neq w "--") N), P in C. cbn [obind] in C. destruct (classify ws); [|discriminate].
    destruct (status_cases o e) as [H|H]; rewrite H.
    + apply step_help; [now apply F|exact A].
    + apply step_no_help; [exact V|]. rewrite F, H. discriminate.
  - rewrite (run_extra w ws ns _ N P (or_intror (ex_intro _ w (ex_intro _ None eq_refl)))). now apply step_unknown.
Qed.
Lemma extras_more ws ns : ns_extras (extras ws ns) = ns_extras ns ++ ws.
Proof. revert ns. induction ws as [|w ws IH]; intros ns; cbn; [now rewrite app_nil_r|]. rewrite IH. cbn. now rewrite <- app_assoc. Qed.
Lemma run_settings argv ns ns' : run argv ns = Done ns' -> ns_extras ns' = [] -> exists ss, settings argv ss /\ ns' = fold_left put ss ns.
Proof.
  remember (length argv) as m eqn:L. assert (L' : length argv <= m) by lia. clear L. revert argv L' ns. induction m as [|m IH]; intros argv L ns R X.
  - destruct argv; [|cbn in L; lia]. injection R as <-. exists []. split; [constructor|reflexivity].
  - pose proof (steps argv ns) as S. rewrite R in S.
    assert (G : forall ws w, run ws (extra w ns) = Done ns' -> False).
    { intros ws w H. apply extras_grow in H as (l & H). rewrite X in H. cbn in H. destruct (ns_extras ns); discriminate. }
    inversion S as [E1 E2|ws E1 E2|w ws V E1 E2|w ws V E1 E2|w n v ws V E1 E2|w n v ws V Q E1 E2| | | |]; subst; try (now destruct (G _ _ E2) || now destruct (G _ _ (eq_sym E2))).
    + exists []. split; [constructor|reflexivity].
    + change (ns_extras (extras ("--" :: ws) ns) = []) in X. rewrite extras_more in X. apply app_eq_nil in X as (_ & X). discriminate.
    + cbn in L. destruct (IH ws ltac:(lia) _ E2 X) as (ss & T & ->). assert (Y : exists x, given v x) by (destruct (string_dec v "--") as [-> |N]; [exists None|exists (Some v)]; now constructor).
      destruct Y as (x & Y). exists ((n, x) :: ss). split; [now constructor|]. cbn [fold_left]. f_equal. now apply store_put, given_value.
    + cbn in L. destruct (IH ws ltac:(lia) _ E2 X) as (ss & T & ->). exists ((n, Some v) :: ss). split; [now constructor|]. cbn [fold_left]. f_equal. now apply store_put, plain_value.
Qed.
(** The last setting counts. *)
Lemma says_put ss : forall ns x y, says ss Command x -> says ss Destination y ->
  fold_left put ss ns = mkNamespace (match x with Some x => Some (value_of x) | None => ns_command ns end)
                                    (match y with Some y => Some (value_of y) | None => ns_save ns end) (ns_extras ns).
Proof.
  assert (T : forall p (ss : list (setting * option string)) n x, says (p :: ss) n x -> (exists x', says ss n x' /\
            x = match x' with Some _ => x' | None => if match fst p, n with Command, Command | Destination, Destination => true | _, _ => false end then Some (snd p) else None end)).
  { intros [m z] ss0 n x [(-> & H)|(y & a & b & -> & E & H)].
    - exists None. split; [left; split; [reflexivity|intros y I; apply (H y); now right]|]. cbn. destruct m, n; try reflexivity; destruct (H z); now left.
    - destruct a as [|p a]; cbn in E.
      + injection E as -> -> ->. exists None. split; [left; split; [reflexivity|exact H]|]. destruct n; reflexivity.
      + injection E as E1 E2. exists (Some y). split; [right; now exists y, a, b|reflexivity]. }
  induction ss as [|p ss IH]; intros ns x y X Y.
  - destruct X as [(-> & _)|(x' & a & b & _ & E & _)]; [|destruct a; discriminate]. destruct Y as [(-> & _)|(x' & a & b & _ & E & _)]; [|destruct a; discriminate]. now destruct ns.
  - apply T in X as (x' & X & ->). apply T in Y as (y' & Y & ->). cbn [fold_left]. rewrite (IH (put ns p) x' y' X Y). destruct p as [[] z], x', y'; reflexivity.
Qed.
Lemma says_ex ss n : exists x, says ss n x.
Proof.
  induction ss as [|[m z] ss (x & IH)]; [exists None; left; split; [reflexivity|intros y []]|].
  destruct x as [x|].
  - exists (Some x). destruct IH as [(E & _)|(y & a & b & [= <-] & -> & H)]; [discriminate|]. right. now exists x, ((m, z) :: a), b.
  - destruct IH as [(_ & H)|(y & a & b & E & _)]; [|discriminate]. destruct m, n.
    2: { exists None. left. split; [reflexivity|]. intros y [I|I]; [discriminate|]. now apply (H y). }
    2: { exists None. left. split; [reflexivity|]. intros y [I|I]; [discriminate|]. now apply (H y). }
    + exists (Some z). right. now exists z, [], ss.
    + exists (Some z). right. now exists z, [], ss.
Qed.
Lemma says_fun ss n x y : says ss n x -> says ss n y -> x = y.
Proof.
  revert x y. induction ss as [|[m z] ss IH]; intros x y.
  - intros [(-> & _)|(x' & a & b & _ & E & _)]; [|destruct a; discriminate]. intros [(-> & _)|(x' & a & b & _ & E & _)]; [|destruct a; discriminate]. reflexivity.
  - assert (T : forall x, says ((m, z) :: ss) n x -> (exists v, x = Some v /\ says ss n (Some v)) \/ (says ss n None /\ (m = n /\ x = Some z \/ m <> n /\ x = None))).
    { intros v [(-> & H)|(v' & a & b & -> & E & H)].
      - right. split; [left; split; [reflexivity|intros q I; apply (H q); now right]|]. right. split; [intros ->; apply (H z); now left|reflexivity].
      - destruct a as [|p a]; cbn in E.
        + injection E as -> -> ->. right. split; [left; split; [reflexivity|exact H]|]. now left.
        + injection E as E1 E2. left. exists v'. split; [reflexivity|]. right. now exists v', a, b. }
    intros X Y. apply T in X, Y. destruct X as [(v & -> & X)|(X & X')], Y as [(v' & -> & Y)|(Y & Y')].
    + exact (IH _ _ X Y).
    + specialize (IH _ _ X Y). discriminate.
    + specialize (IH _ _ X Y). discriminate.
    + destruct X' as [(E & ->)|(E & ->)], Y' as [(E' & ->)|(E' & ->)]; congruence.
Qed.
