(** * Facts about [json.dumps] and about the data in a JSON text *)
From Coq Require Import NArith Lia.
Require Import Verif.PyBase Verif.SpecShlex Verif.JsonData Verif.ArgsToJson Verif.Json Verif.SpecArgs Verif.SpecJson Verif.JsonFacts.

(** ** Induction over values *)
Section JsonInd.
  Variable P : json -> Prop.
  Hypothesis HW : forall w, P (JWord w).
  Hypothesis HN : forall n, P (JNum n).
  Hypothesis HS : forall s, P (JStr s).
  Hypothesis HA : forall l, Forall P l -> P (JArr l).
  Hypothesis HO : forall l, Forall (fun kv => P (snd kv)) l -> P (JObj l).
  Fixpoint json_induction (v : json) : P v :=
    match v with
    | JWord w => HW w
    | JNum n => HN n
    | JStr s => HS s
    | JArr l => HA l ((fix go l := match l return Forall P l with
                                   | [] => Forall_nil _
                                   | v :: l' => Forall_cons v (json_induction v) (go l')
                                   end) l)
    | JObj l => HO l ((fix go l := match l return Forall (fun kv => P (snd kv)) l with
                                   | [] => Forall_nil _
                                   | (k, v) :: l' => Forall_cons (k, v) (json_induction v) (go l')
                                   end) l)
    end.
End JsonInd.

(** ** Strings *)
Definition split_code (n : N) : list N :=
  if N.ltb n 65536 then [n] else [55296 + (n - 65536) / 1024; 56320 + (n - 65536) mod 1024]%N.
Lemma hex_char_right n : (n < 16)%N -> hex_digit_of (hex_char n) n.
Proof.
  intros L. unfold hex_char. destruct (N.ltb n 10) eqn:E.
  - apply N.ltb_lt in E. now apply hd_dec.
  - apply N.ltb_ge in E. replace (87 + n)%N with (97 + (n - 10))%N by lia. apply hd_low. lia.
Qed.
Lemma mod16 n : (n mod 16 < 16)%N.
Proof. apply N.mod_lt. lia. Qed.
Lemma hex_sum n : (n < 65536)%N ->
  (4096 * (n / 4096 mod 16) + 256 * (n / 256 mod 16) + 16 * (n / 16 mod 16) + n mod 16)%N = n.
Proof.
  intros L.
  assert (E0 := N.div_mod n 16). assert (E1 := N.div_mod (n / 16) 16). assert (E2 := N.div_mod (n / 256) 16).
  assert (D1 : (n / 16 / 16 = n / 256)%N) by (rewrite N.div_div by lia; reflexivity).
  assert (D2 : (n / 256 / 16 = n / 4096)%N) by (rewrite N.div_div by lia; reflexivity).
  assert (S : (n / 4096 < 16)%N) by (apply N.div_lt_upper_bound; lia).
  rewrite (N.mod_small (n / 4096) 16) by exact S. lia.
Qed.
Lemma u_escape_unit n : (n < 65536)%N -> unit_text n (u_escape n).
Proof.
  intros L. rewrite <- (hex_sum n L) at 1.
  assert (U := ut_hex _ _ _ _ _ _ _ _ (hex_char_right _ (mod16 (n / 4096))) (hex_char_right _ (mod16 (n / 256)))
    (hex_char_right _ (mod16 (n / 16))) (hex_char_right _ (mod16 n))).
  exact U.
Qed.
Lemma units_one n s : unit_text n s -> units_text [n] s.
Proof. intros U. rewrite <- (app_nil_s s). constructor; [exact U|constructor]. Qed.
Lemma units_app l s m t : units_text l s -> units_text m t -> units_text (l ++ m) (s +++ t).
Proof. induction 1 as [|n l s s' U US IH]; intros M; cbn; [exact M|]. rewrite app_assoc_s. constructor; auto. Qed.
Lemma encode_char_units n : (n < 1114112)%N -> units_text (split_code n) (encode_char n).
Proof.
  intros L. unfold encode_char, split_code.
  assert (SH : forall k e, n = k -> In (e, k) short_escapes -> units_text [n] (backslash +++ e))
    by (intros k e -> I; apply units_one, ut_short; exact I).
  destruct (N.eqb n 34) eqn:E1; [apply N.eqb_eq in E1; subst; apply (SH 34%N quote eq_refl); cbn; tauto|].
  destruct (N.eqb n 92) eqn:E2; [apply N.eqb_eq in E2; subst; apply (SH 92%N backslash eq_refl); cbn; tauto|].
  destruct (N.eqb n 10) eqn:E3; [apply N.eqb_eq in E3; subst; apply (SH 10%N "n" eq_refl); cbn; tauto|].
  destruct (N.eqb n 13) eqn:E4; [apply N.eqb_eq in E4; subst; apply (SH 13%N "r" eq_refl); cbn; tauto|].
  destruct (N.eqb n 9) eqn:E5; [apply N.eqb_eq in E5; subst; apply (SH 9%N "t" eq_refl); cbn; tauto|].
  destruct (N.eqb n 12) eqn:E6; [apply N.eqb_eq in E6; subst; apply (SH 12%N "f" eq_refl); cbn; tauto|].
  destruct (N.eqb n 8) eqn:E7; [apply N.eqb_eq in E7; subst; apply (SH 8%N "b" eq_refl); cbn; tauto|].
  apply N.eqb_neq in E1, E2.
  destruct (N.leb 32 n && N.leb n 126) eqn:E8.
  - apply Bool.andb_true_iff in E8. rewrite !N.leb_le in E8.
    replace (N.ltb n 65536) with true by (symmetry; apply N.ltb_lt; lia).
    apply units_one. rewrite <- (N_ascii_embedding n) at 1 by lia.
    apply ut_plain; unfold nat_of_ascii; rewrite N_ascii_embedding by lia; lia.
  - destruct (N.ltb n 65536) eqn:E9; [apply units_one, u_escape_unit, N.ltb_lt, E9|].
    apply N.ltb_ge in E9.
    assert (D : ((n - 65536) / 1024 < 1024)%N) by (apply N.div_lt_upper_bound; lia).
    assert (M : ((n - 65536) mod 1024 < 1024)%N) by (apply N.mod_lt; lia).
    apply (units_app [_] _ [_] _); apply units_one, u_escape_unit; lia.
Qed.
Lemma encode_units l : Forall (fun n => (n < 1114112)%N) l ->
  units_text (flat_map split_code l) (concat_all (map encode_char l)).
Proof. induction 1 as [|n l H _ IH]; cbn; [constructor|]. apply units_app; [now apply encode_char_units|exact IH]. Qed.
Lemma code_points_length l m : code_points l m -> List.length m <= List.length l.
Proof. induction 1; cbn; lia. Qed.
Lemma split_join l : Forall (fun n => (n < 1114112)%N) l -> code_points l l -> code_points (flat_map split_code l) l.
Proof.
  induction 1 as [|n l H F IH]; intros C; [constructor|].
  assert (C' : (forall b l', l = b :: l' -> ~ (is_high n /\ is_low b)) /\ code_points l l).
  { inversion C as [|a b l0 m A B D E1 E2|a l0 m N D E1 E2]; subst.
    - apply code_points_length in D. cbn in D. lia.
    - auto. }
  destruct C' as [NP C']. specialize (IH C'). cbn. unfold split_code at 1.
  destruct (N.ltb n 65536) eqn:E; cbn [app].
  - apply cp_single; [|exact IH]. intros b l' E2 [Hi Lo]. destruct l as [|x l]; [discriminate|].
    cbn [flat_map] in E2. unfold split_code in E2. destruct (N.ltb x 65536) eqn:Ex; cbn [app] in E2.
    + injection E2 as <- _. apply (NP _ _ eq_refl). auto.
    + assert (E3 : b = (55296 + (x - 65536) / 1024)%N) by congruence. assert (Hx := Forall_inv F). cbn beta in Hx. apply N.ltb_ge in Ex. unfold is_low in Lo.
      assert (D : ((x - 65536) / 1024 < 1024)%N) by (apply N.div_lt_upper_bound; lia). lia.
  - apply N.ltb_ge in E.
    assert (D : ((n - 65536) / 1024 < 1024)%N) by (apply N.div_lt_upper_bound; lia).
    assert (M : ((n - 65536) mod 1024 < 1024)%N) by (apply N.mod_lt; lia).
    assert (Eq := N.div_mod (n - 65536) 1024 ltac:(discriminate)).
    set (q := ((n - 65536) / 1024)%N) in *. set (r := ((n - 65536) mod 1024)%N) in *.
    replace (n :: l) with ((65536 + 1024 * (55296 + q - 55296) + (56320 + r - 56320))%N :: l) by (f_equal; lia).
    apply cp_pair; [unfold is_high; lia|unfold is_low; lia|exact IH].
Qed.
Lemma encode_string_right l : python_text l -> string_text l (encode_string l).
Proof.
  intros [F C]. unfold encode_string. apply (st_quoted (flat_map split_code l)); [now apply encode_units|now apply split_join].
Qed.

(** ** Values *)
Lemma repeat_blanks n : blanks (repeat_text n "    ").
Proof. unfold blanks. induction n as [|n IH]; [exact I|]. cbn [repeat_text]. apply all_app. split; [|exact IH]. cbn. unfold blank. tauto. Qed.
Lemma newline_blanks n : blanks (json_newline n).
Proof. unfold blanks, json_newline. apply all_app. split; [cbn; unfold blank; tauto|apply repeat_blanks]. Qed.
Lemma joined_items f l lv b : l <> [] -> Forall (fun v => value_text v (f v)) l -> blanks b ->
  items_text l (json_newline lv +++ joined_with ("," +++ json_newline lv) (map f l) +++ b).
Proof.
  intros N F B. induction F as [|v l V F IH]; [congruence|]. destruct l as [|w l].
  - cbn [map joined_with]. apply it_one; [apply newline_blanks|exact V|exact B].
  - specialize (IH ltac:(discriminate)). cbn [map joined_with] in *. rewrite !app_assoc_s.
    change (items_text (v :: w :: l) (json_newline lv +++ f v +++ "" +++ "," +++
      (json_newline lv +++ joined_with ("," +++ json_newline lv) (f w :: map f l) +++ b))).
    apply it_more; [apply newline_blanks|exact V|exact I|exact IH].
Qed.
Lemma joined_members f l lv b : l <> [] -> Forall (fun kv => string_text (fst kv) (encode_string (fst kv)) /\ value_text (snd kv) (f (snd kv))) l -> blanks b ->
  members_text l (json_newline lv +++ joined_with ("," +++ json_newline lv) (map (fun kv => encode_string (fst kv) +++ ": " +++ f (snd kv)) l) +++ b).
Proof.
  intros N F B. assert (B1 : blanks " ") by (cbn; unfold blank; tauto). induction F as [|[k v] l [K V] F IH]; [congruence|]. cbn in K, V. destruct l as [|w l].
  - cbn [map joined_with fst snd]. rewrite !app_assoc_s.
    change (members_text [(k, v)] (json_newline lv +++ encode_string k +++ "" +++ ":" +++ " " +++ f v +++ b)).
    apply mt_one; auto; [apply newline_blanks|exact I].
  - specialize (IH ltac:(discriminate)).
    set (g := fun kv => encode_string (fst kv) +++ ": " +++ f (snd kv)) in *.
    change (joined_with ("," +++ json_newline lv) (map g ((k, v) :: w :: l))) with
      ((encode_string k +++ ": " +++ f v) +++ ("," +++ json_newline lv) +++ joined_with ("," +++ json_newline lv) (map g (w :: l))).
    set (t := joined_with ("," +++ json_newline lv) (map g (w :: l))) in *. rewrite !app_assoc_s.
    change (members_text ((k, v) :: w :: l) (json_newline lv +++ encode_string k +++ "" +++ ":" +++ " " +++ f v +++ "" +++ "," +++
      (json_newline lv +++ t +++ b))).
    apply mt_more; auto; [apply newline_blanks|exact I|exact I].
Qed.
Lemma dumps_right v : writable v -> forall level, value_text v (dumps_at level v).
Proof.
  induction v as [w|n|s|l IH|l IH] using json_induction; intros W level; inversion W as [? I|? I|? F|? F]; subst.
  - now constructor.
  - cbn. apply vt_string. now apply encode_string_right.
  - destruct l as [|v l]; [apply (vt_array0 ""); exact I|].
    change (value_text (JArr (v :: l)) ("[" +++ json_newline (S level)
      +++ joined_with ("," +++ json_newline (S level)) (map (dumps_at (S level)) (v :: l)) +++ json_newline level +++ "]")).
    assert (X : forall a b c d : string, a +++ b +++ c +++ d = a +++ (b +++ c) +++ d) by (intros; now rewrite !app_assoc_s).
    rewrite <- (app_assoc_s (joined_with _ _)), <- (app_assoc_s (json_newline (S level))).
    apply vt_array. apply joined_items; [discriminate| |apply newline_blanks].
    rewrite Forall_forall in *. intros x Ix. apply IH; auto.
  - destruct l as [|v l]; [apply (vt_object0 ""); exact I|].
    change (value_text (JObj (v :: l)) ("{" +++ json_newline (S level)
      +++ joined_with ("," +++ json_newline (S level)) (map (fun kv => encode_string (fst kv) +++ ": " +++ dumps_at (S level) (snd kv)) (v :: l)) +++ json_newline level +++ "}")).
    rewrite <- (app_assoc_s (joined_with _ _)), <- (app_assoc_s (json_newline (S level))).
    apply vt_object. apply joined_members; [discriminate| |apply newline_blanks].
    rewrite Forall_forall in *. intros x Ix. destruct (F x Ix) as [K V]. split; [now apply encode_string_right|]. now apply IH.
Qed.
Lemma dumps_document v b1 b2 : writable v -> blanks b1 -> blanks b2 -> document v (b1 +++ dumps v +++ b2).
Proof. intros W B1 B2. exists b1, (dumps v), b2. split; [reflexivity|]. split; [exact B1|]. split; [now apply dumps_right|exact B2]. Qed.

(** ** ASCII *)
Lemma hex_char_ascii n : (n < 16)%N -> plain_ascii (hex_char n).
Proof.
  intros L. unfold hex_char, plain_ascii, nat_of_ascii. destruct (N.ltb n 10) eqn:E; rewrite N_ascii_embedding by lia; lia.
Qed.
Lemma u_escape_ascii n : all_chars plain_ascii (u_escape n).
Proof.
  unfold u_escape. cbn [all_chars append one_char]. cbn -[hex_char N.modulo N.div].
  repeat split; try (apply hex_char_ascii, mod16); unfold plain_ascii; cbn; lia.
Qed.
Lemma encode_char_ascii n : all_chars plain_ascii (encode_char n).
Proof.
  unfold encode_char.
  repeat match goal with |- context [if N.eqb n ?k then _ else _] =>
    destruct (N.eqb n k); [cbn; unfold plain_ascii; cbn; repeat split; lia|] end.
  destruct (N.leb 32 n && N.leb n 126) eqn:E.
  - apply Bool.andb_true_iff in E. rewrite !N.leb_le in E. cbn. split; [|exact I].
    unfold plain_ascii, nat_of_ascii. rewrite N_ascii_embedding by lia. lia.
  - destruct (N.ltb n 65536); [apply u_escape_ascii|]. apply all_app. split; apply u_escape_ascii.
Qed.
Lemma encode_string_ascii l : all_chars plain_ascii (encode_string l).
Proof.
  assert (Q : all_chars plain_ascii """") by (cbn; unfold plain_ascii; cbn; split; [lia|exact I]).
  unfold encode_string. apply all_app. split; [exact Q|]. apply all_app. split; [|exact Q].
  induction l as [|n l IH]; cbn [map concat_all]; [exact I|]. apply all_app. split; [apply encode_char_ascii|exact IH].
Qed.
Lemma newline_ascii n : all_chars plain_ascii (json_newline n).
Proof.
  unfold json_newline. apply all_app. split; [cbn; unfold plain_ascii; cbn; split; [lia|exact I]|].
  induction n as [|n IH]; [exact I|]. cbn [repeat_text]. apply all_app. split; [|exact IH].
  cbn. unfold plain_ascii; cbn. repeat split; lia.
Qed.
Lemma joined_ascii sep l : all_chars plain_ascii sep -> Forall (all_chars plain_ascii) l -> all_chars plain_ascii (joined_with sep l).
Proof.
  intros S F. induction F as [|s l H F IH]; [exact I|]. destruct l; [exact H|].
  cbn [joined_with] in *. apply all_app. split; [exact H|]. apply all_app. auto.
Qed.
Lemma dumps_ascii v : writable v -> forall level, all_chars plain_ascii (dumps_at level v).
Proof.
  assert (One : forall c, plain_ascii c -> all_chars plain_ascii (one_char c)) by (intros; cbn; auto).
  induction v as [w|n|s|l IH|l IH] using json_induction; intros W level; inversion W as [? J|? J|? F|? F]; subst.
  - cbn in J. repeat destruct J as [<-|J]; cbn; unfold plain_ascii; cbn; repeat split; lia || destruct J.
  - apply encode_string_ascii.
  - destruct l as [|v l]; [cbn; unfold plain_ascii; cbn; repeat split; lia|].
    change (all_chars plain_ascii (one_char "[" +++ json_newline (S level)
      +++ joined_with (one_char "," +++ json_newline (S level)) (map (dumps_at (S level)) (v :: l)) +++ json_newline level +++ one_char "]")).
    rewrite !all_app. split; [apply One; unfold plain_ascii; cbn; lia|]. split; [apply newline_ascii|].
    split; [|split; [apply newline_ascii|apply One; unfold plain_ascii; cbn; lia]].
    apply joined_ascii; [apply all_app; split; [apply One; unfold plain_ascii; cbn; lia|apply newline_ascii]|].
    apply Forall_map. rewrite Forall_forall in *. intros x Ix. apply IH; auto.
  - destruct l as [|v l]; [cbn; unfold plain_ascii; cbn; repeat split; lia|].
    change (all_chars plain_ascii (one_char "{" +++ json_newline (S level)
      +++ joined_with (one_char "," +++ json_newline (S level)) (map (fun kv => encode_string (fst kv) +++ ": " +++ dumps_at (S level) (snd kv)) (v :: l)) +++ json_newline level +++ one_char "}")).
    rewrite !all_app. split; [apply One; unfold plain_ascii; cbn; lia|]. split; [apply newline_ascii|].
    split; [|split; [apply newline_ascii|apply One; unfold plain_ascii; cbn; lia]].
    apply joined_ascii; [apply all_app; split; [apply One; unfold plain_ascii; cbn; lia|apply newline_ascii]|].
    apply Forall_map. rewrite Forall_forall in *. intros x Ix. destruct (F x Ix) as [_ V].
    apply all_app. split; [apply encode_string_ascii|]. apply all_app. split; [cbn; unfold plain_ascii; cbn; repeat split; lia|].
    now apply IH.
Qed.

(** ** Command data *)
Lemma codes_latin s : latin s (codes s).
Proof. unfold latin. induction s as [|c s IH]; cbn; [reflexivity|]. now rewrite IH. Qed.
Lemma small_text_iff l s : small_text l = Some s <-> latin s l.
Proof.
  unfold latin. revert s. induction l as [|n l IH]; intros s; cbn.
  - split; [now intros [= <-]|]. destruct s; [reflexivity|discriminate].
  - destruct (N.leb n 255) eqn:E.
    + apply N.leb_le in E. split.
      * destruct (small_text l) as [t|]; [|discriminate]. intros [= <-]. cbn.
        rewrite N_ascii_embedding by lia. f_equal. now apply IH.
      * destruct s as [|c s]; [discriminate|]. cbn. intros [= -> H]. apply IH in H. rewrite H. cbn.
        now rewrite ascii_N_embedding.
    + apply N.leb_gt in E. split; [discriminate|]. destruct s as [|c s]; [discriminate|]. cbn. intros [= -> _].
      assert (B := N_ascii_bounded c). lia.
Qed.
Lemma string_of_iff v s : string_of v = Some s <-> string_is v s.
Proof.
  split.
  - destruct v; try discriminate. cbn. intros H. constructor. now apply small_text_iff.
  - intros H. inversion H; subst. now apply small_text_iff.
Qed.
Lemma all_some_iff {A B} (f : A -> option B) (R : A -> B -> Prop) (H : forall a b, f a = Some b <-> R a b) l m :
  all_some (map f l) = Some m <-> Forall2 R l m.
Proof.
  revert m. induction l as [|a l IH]; intros m; cbn.
  - split; [intros [= <-]; constructor|]. now inversion 1.
  - destruct (f a) as [b|] eqn:E.
    + apply H in E. split.
      * destruct (all_some (map f l)) as [m'|] eqn:Em; [|discriminate]. intros [= <-]. constructor; [exact E|now apply IH].
      * inversion 1 as [|? b' ? m' Rb F]; subst. apply IH in F. rewrite F. apply H in E, Rb. cbn. congruence.
    + split; [discriminate|]. inversion 1 as [|? b' ? m' Rb F]; subst. apply H in Rb. congruence.
Qed.
Lemma strings_of_iff l m : strings_of l = Some m <-> Forall2 string_is l m.
Proof. unfold strings_of. apply (all_some_iff string_of string_is string_of_iff). Qed.
Lemma as_flag_entry_iff v e : as_flag_entry v = Some e <-> flag_is v e.
Proof.
  split.
  - destruct v; try discriminate; cbn.
    + destruct (small_text s) eqn:E; [|discriminate]. intros [= <-]. constructor. constructor. now apply small_text_iff.
    + destruct (strings_of l) eqn:E; [|discriminate]. intros [= <-]. constructor. now apply strings_of_iff.
  - inversion 1 as [? s S|l ss F]; subst.
    + inversion S as [s' l L]; subst. apply small_text_iff in L. cbn. now rewrite L.
    + apply strings_of_iff in F. cbn. now rewrite F.
Qed.
Lemma as_option_arg_iff v e : as_option_arg v = Some e <-> arg_is v e.
Proof.
  split.
  - destruct v; try discriminate; cbn.
    + destruct (small_text s) eqn:E; [|discriminate]. intros [= <-]. constructor. constructor. now apply small_text_iff.
    + destruct (strings_of l) eqn:E; [|discriminate]. intros [= <-]. constructor. now apply strings_of_iff.
  - inversion 1 as [? s S|l ss F]; subst.
    + inversion S as [s' l L]; subst. apply small_text_iff in L. cbn. now rewrite L.
    + apply strings_of_iff in F. cbn. now rewrite F.
Qed.
Lemma as_option_entry_iff v e : as_option_entry v = Some e <-> option_is v e.
Proof.
  split.
  - destruct v; try discriminate; cbn. destruct (rev l) as [|a names] eqn:R; [discriminate|].
    destruct (strings_of (rev names)) eqn:S; [|discriminate]. destruct (as_option_arg a) eqn:O; [|discriminate].
    intros [= <-]. rewrite <- (rev_involutive l), R. cbn. constructor; [now apply strings_of_iff|now apply as_option_arg_iff].
  - inversion 1 as [l ss a x F A]; subst. unfold as_option_entry. rewrite rev_app_distr. cbn [rev app]. rewrite rev_involutive.
    apply strings_of_iff in F. apply as_option_arg_iff in A. now rewrite F, A.
Qed.
Lemma codes_eqb_iff a b : codes_eqb a b = true <-> a = b.
Proof.
  revert b. induction a as [|x a IH]; intros [|y b]; cbn; try (split; (reflexivity || discriminate)).
  rewrite Bool.andb_true_iff, N.eqb_eq, IH. split; [now intros [-> ->]|now intros [= -> ->]].
Qed.
Lemma last_assigned_none l k : last_assigned l k = None <-> ~ In k (map fst l).
Proof.
  induction l as [|[k' v] l IH]; cbn; [tauto|]. destruct (last_assigned l k).
  - split; [discriminate|]. intros H. exfalso. apply H. right. destruct (in_dec (list_eq_dec N.eq_dec) k (map fst l)) as [Y|Y]; [exact Y|].
    apply IH in Y. discriminate.
  - destruct (codes_eqb k' k) eqn:E.
    + apply codes_eqb_iff in E. subst. split; [discriminate|tauto].
    + split; [|reflexivity]. intros _ [->|I]; [|now apply (proj1 IH eq_refl)].
      assert (codes_eqb k k = true) by now apply codes_eqb_iff. congruence.
Qed.
Lemma last_assigned_iff l k v : last_assigned l (codes k) = Some v <-> member k v l.
Proof.
  assert (G : forall key, last_assigned l key = Some v <->
    exists before after, l = before ++ (key, v) :: after /\ ~ In key (map fst after)).
  { intros key. induction l as [|[k' w] l IH]; cbn.
    - split; [discriminate|]. intros ([|? ?] & after & E & _); discriminate.
    - destruct (last_assigned l key) as [x|] eqn:L.
      + rewrite IH. split.
        * intros (b & a & -> & N). exists ((k', w) :: b), a. auto.
        * intros ([|p b] & a & E & N); cbn in E; injection E as E1 E2.
          -- subst. apply last_assigned_none in N. congruence.
          -- eauto.
      + apply last_assigned_none in L. destruct (codes_eqb k' key) eqn:E.
        * apply codes_eqb_iff in E. subst k'. split.
          -- intros [= ->]. exists [], l. auto.
          -- intros ([|p b] & a & E & N); cbn in E; injection E as E1 E2; [congruence|].
             exfalso. apply L. subst l. rewrite map_app. apply in_or_app. right. now left.
        * split; [discriminate|]. intros ([|p b] & a & E2 & N); cbn in E2; injection E2 as E3 E4.
          -- subst. assert (codes_eqb key key = true) by now apply codes_eqb_iff. congruence.
          -- exfalso. apply L. subst l. rewrite map_app. apply in_or_app. right. now left. }
  rewrite G. unfold member. split.
  - intros (b & a & H). exists (codes k), b, a. split; [apply codes_latin|exact H].
  - intros (k' & b & a & L & H). assert (C := codes_latin k). unfold latin in *. rewrite <- C in L. subst k'. eauto.
Qed.
Lemma as_data_iff v d : as_data v = Some d <-> holds v d.
Proof.
  split.
  - destruct v as [| | | |l]; try discriminate. unfold as_data.
    destruct (last_assigned l (codes "flag")) as [[| | |fs|]|] eqn:F; try discriminate.
    destruct (last_assigned l (codes "option")) as [[| | |os|]|] eqn:O; try discriminate.
    destruct (all_some (map as_flag_entry fs)) eqn:AF; [|discriminate].
    destruct (all_some (map as_option_entry os)) eqn:AO; [|discriminate]. intros [= <-].
    apply last_assigned_iff in F, O. econstructor; [exact F|exact O| |]; cbn.
    + now apply (all_some_iff as_flag_entry flag_is as_flag_entry_iff).
    + now apply (all_some_iff as_option_entry option_is as_option_entry_iff).
  - inversion 1 as [l fs os d' F O AF AO]; subst. unfold as_data. apply last_assigned_iff in F, O. rewrite F, O.
    apply (all_some_iff as_flag_entry flag_is as_flag_entry_iff) in AF.
    apply (all_some_iff as_option_entry option_is as_option_entry_iff) in AO. rewrite AF, AO. now destruct d.
Qed.

(** ** What the scraper writes *)
Lemma text_value_is s : string_is (text_value s) s.
Proof. constructor. apply codes_latin. Qed.
Lemma text_values_are l : Forall2 string_is (map text_value l) l.
Proof. induction l; cbn; constructor; auto. apply text_value_is. Qed.
Lemma flag_value_is e : flag_is (flag_value e) e.
Proof. destruct e; constructor; [apply text_values_are|apply text_value_is]. Qed.
Lemma arg_value_is e : arg_is (arg_value e) e.
Proof. destruct e; constructor; [apply text_value_is|apply text_values_are]. Qed.
Lemma option_value_is e : option_is (option_value e) e.
Proof. destruct e. constructor; [apply text_values_are|apply arg_value_is]. Qed.
Lemma data_value_holds d : holds (data_value d) d.
Proof.
  econstructor.
  - exists (codes "flag"), [], [(codes "option", JArr (map option_value (j_option d)))].
    split; [apply codes_latin|]. split; [reflexivity|]. cbn. intros [H|[]]. discriminate.
  - exists (codes "option"), [(codes "flag", JArr (map flag_value (j_flag d)))], [].
    split; [apply codes_latin|]. split; [reflexivity|]. cbn. tauto.
  - induction (j_flag d); cbn; constructor; auto. apply flag_value_is.
  - induction (j_option d); cbn; constructor; auto. apply option_value_is.
Qed.
Lemma latin_python s : python_text (codes s).
Proof.
  assert (B : Forall (fun n => (n < 256)%N) (codes s)).
  { induction s; cbn; constructor; auto. apply N_ascii_bounded. }
  split.
  - eapply Forall_impl; [|exact B]. cbn. intros. lia.
  - induction B as [|n l H F IH]; constructor; auto. intros b l' _ [X _]. unfold is_high in X. lia.
Qed.
Lemma data_value_writable d : writable (data_value d).
Proof.
  assert (T : forall s, writable (text_value s)) by (intros; constructor; apply latin_python).
  assert (TS : forall l, Forall writable (map text_value l)) by (intros l; apply Forall_map, Forall_forall; auto).
  constructor. repeat apply Forall_cons; try apply Forall_nil; cbn [fst snd]; (split; [apply latin_python|]);
    constructor; apply Forall_map, Forall_forall; intros e _.
  - destruct e; cbn; [constructor; apply TS|apply T].
  - constructor. apply Forall_app. split; [apply TS|]. constructor; [|constructor].
    destruct (oe_arg e); cbn; [apply T|constructor; apply TS].
Qed.
Lemma args_to_json_loads lines : loads (args_to_json lines) = Ok (data_value (parse_lines lines)).
Proof.
  apply loads_iff. unfold args_to_json. apply (dumps_document _ "" (one_char "010")).
  - apply data_value_writable.
  - exact I.
  - cbn. unfold blank. tauto.
Qed.
Lemma option_lines_cons s page : option_lines (s :: page) =
  match cut_prefix (seven +++ "-") s with
  | Some _ => [lstrip s +++ one_char "010"]
  | None => []
  end ++ option_lines page.
Proof. reflexivity. Qed.
Lemma kept_right page : kept page (option_lines page).
Proof.
  induction page as [|s page IH]; [constructor|]. rewrite option_lines_cons.
  destruct (cut_prefix (seven +++ "-") s) as [x|] eqn:C.
  - apply cut_prefix_iff in C. subst s. exact (kp_keep x page _ IH).
  - cbn [app]. apply kp_drop; [|exact IH]. intros x E.
    assert (H := proj2 (cut_prefix_iff (seven +++ "-") s x) E). congruence.
Qed.
Lemma kept_fun page l : kept page l -> l = option_lines page.
Proof.
  induction 1 as [|s page l H IH|s page l N H IH]; [reflexivity| |]; rewrite option_lines_cons.
  - rewrite (proj2 (cut_prefix_iff (seven +++ "-") ("       -" +++ s) s) eq_refl), <- IH. reflexivity.
  - destruct (cut_prefix (seven +++ "-") s) as [x|] eqn:C; [apply cut_prefix_iff in C; now destruct (N x)|].
    exact IH.
Qed.
Lemma kept_lines page l : Forall (all_chars (fun c => c <> "010"%char)) page -> kept page l -> Forall text_line l.
Proof.
  intros F K. induction K as [|s page l K IH|s page l N K IH]; [constructor| |]; inversion F as [|? ? H F']; subst.
  - constructor; [|now apply IH]. exists ("-" +++ s). cbn in H. split.
    + cbn. split; [discriminate|apply H].
    + right. reflexivity.
  - now apply IH.
Qed.
