(** * Texts can be split in one way only *)
Require Import Verif.PyBase Verif.JsonData Verif.Shlex Verif.Parser Verif.Access Verif.IOInfo Verif.IOVars Verif.Transformers
  Verif.ParaTypes Verif.SpecShlex Verif.ShlexFacts Verif.ParaProps Verif.Text Verif.SpecText.

Lemma sapp_inv a x y : a +++ x = a +++ y -> x = y.
Proof. induction a; cbn; intros H; [exact H|injection H; auto]. Qed.
Lemma sapp_inv_r x : forall a b, a +++ x = b +++ x -> a = b.
Proof.
  intros a b H. apply (f_equal list_ascii_of_string) in H.
  assert (E : forall s t, list_ascii_of_string (s +++ t) = list_ascii_of_string s ++ list_ascii_of_string t).
  { induction s; intros t; cbn; [reflexivity|now rewrite IHs]. }
  rewrite !E in H. apply app_inv_tail in H. apply (f_equal string_of_list_ascii) in H.
  now rewrite !string_of_list_ascii_of_string in H.
Qed.

(** Texts none of which starts another one *)
Definition code {A} (ok : A -> Prop) (f : A -> string) : Prop :=
  forall a b x y, ok a -> ok b -> f a +++ x = f b +++ y -> a = b /\ x = y.

(** A word and what follows on the next line *)
Lemma line_code z : all_chars (fun c => c <> "010"%char) z ->
  code one_line (fun s => s +++ z +++ newline).
Proof.
  intros Z. intros a b x y A B H. rewrite !sapp_assoc in H.
  assert (G : forall (u v : string) (x y : string), one_line u -> one_line v -> u +++ newline +++ x = v +++ newline +++ y -> u = v /\ x = y).
  { clear. induction u as [|c u IH]; intros [|d v] x y U V E; cbn in *.
    - injection E as E. auto.
    - injection E as E _. destruct V as [V _]. congruence.
    - injection E as E _. destruct U as [U _]. congruence.
    - injection E as -> E. destruct (IH v x y) as [-> ->]; tauto. }
  destruct (G (a +++ z) (b +++ z) x y) as [E ->].
  - apply all_chars_app. now split.
  - apply all_chars_app. now split.
  - rewrite !sapp_assoc. exact H.
  - split; [|reflexivity]. now apply sapp_inv_r in E.
Qed.
Lemma line_inv a b x y : one_line a -> one_line b -> a +++ newline +++ x = b +++ newline +++ y -> a = b /\ x = y.
Proof. intros A B H. apply (line_code ""); auto; [exact I|]. cbn [String.append]. rewrite !sapp_assoc. exact H. Qed.

(** ** Lists *)
Lemma join_cons s l : join (s :: l) = match l with [] => s | _ => s +++ ", " +++ join l end.
Proof. destruct l; reflexivity. Qed.
Lemma list_code_at {A} (ok : A -> Prop) (f : A -> string) :
  (forall a x y, ok a -> f a +++ x <> "]" +++ y) ->
  forall l, Forall ok l -> Forall (fun a => forall b x y, ok b -> f a +++ x = f b +++ y -> a = b /\ x = y) l ->
  forall m x y, Forall ok m -> ("[" +++ join (map f l) +++ "]") +++ x = ("[" +++ join (map f m) +++ "]") +++ y -> l = m /\ x = y.
Proof.
  intros N. assert (G : forall l, Forall ok l -> Forall (fun a => forall b x y, ok b -> f a +++ x = f b +++ y -> a = b /\ x = y) l ->
    forall m x y, Forall ok m -> join (map f l) +++ "]" +++ x = join (map f m) +++ "]" +++ y -> l = m /\ x = y).
  { induction l as [|a l IH]; intros L C m x y M H.
    - destruct m as [|b m]; cbn [map] in H; [cbn in H; injection H as H; auto|]. exfalso. inversion M; subst.
      rewrite join_cons in H. destruct (map f m); [apply (N b ("]" +++ y) x)|apply (N b (", " +++ join (s :: l) +++ "]" +++ y) x)]; auto.
      rewrite !sapp_assoc in H. symmetry. exact H.
    - inversion L; subst. inversion C as [|? ? Ca Cl]; subst. destruct m as [|b m]; cbn [map] in H.
      + exfalso. rewrite join_cons in H. destruct (map f l); [apply (N a ("]" +++ x) y)|apply (N a (", " +++ join (s :: l0) +++ "]" +++ x) y)]; auto.
        rewrite !sapp_assoc in H. exact H.
      + inversion M; subst. rewrite !join_cons in H.
        destruct l as [|a' l]; destruct m as [|b' m]; cbn [map] in H; cbv iota in H; rewrite ?sapp_assoc in H;
          apply Ca in H; auto; destruct H as [-> H]; try discriminate.
        * injection H as ->. auto.
        * apply sapp_inv in H. destruct (IH ltac:(assumption) Cl (b' :: m) x y) as [E ->]; auto. now rewrite E. }
  intros l L C m x y M H. rewrite !sapp_assoc in H. apply sapp_inv in H. now apply G in H.
Qed.
Lemma list_code {A} (ok : A -> Prop) (f : A -> string) :
  code ok f -> (forall a x y, ok a -> f a +++ x <> "]" +++ y) ->
  code (Forall ok) (fun l => "[" +++ join (map f l) +++ "]").
Proof.
  intros C N l m x y L M. apply (list_code_at ok f N); auto. rewrite Forall_forall in *. intros a I b x' y' B. apply C; auto.
Qed.

(** ** repr of strings *)
Definition all_ascii : list ascii := map ascii_of_nat (seq 0 256).
Lemma in_all_ascii c : In c all_ascii.
Proof.
  unfold all_ascii. apply in_map_iff. exists (nat_of_ascii c). split; [apply ascii_nat_embedding|].
  apply in_seq. split; [apply Nat.le_0_l|]. apply nat_ascii_bounded.
Qed.
(** [a] is no proper start of [b] and conversely, nor does the rest decide *)
Fixpoint clash (a b : string) : bool :=
  match a, b with
  | String c a', String d b' => negb (Ascii.eqb c d) || clash a' b'
  | _, _ => false
  end.
Lemma clash_neq a : forall b x y, clash a b = true -> a +++ x <> b +++ y.
Proof.
  induction a as [|c a IH]; intros [|d b] x y H; cbn in H; try discriminate. intros E. injection E as -> E.
  rewrite Ascii.eqb_refl in H. cbn in H. now apply (IH b x y) in H.
Qed.
Definition quotes : list ascii := ["'"%char; """"%char].
Lemma repr_char_checked : forallb (fun q => forallb (fun c => clash (repr_char q c) (one_char q) &&
  forallb (fun d => Ascii.eqb c d || clash (repr_char q c) (repr_char q d)) all_ascii) all_ascii) quotes = true.
Proof. vm_compute. reflexivity. Qed.
Lemma repr_char_code q c d x y : In q quotes -> repr_char q c +++ x = repr_char q d +++ y -> c = d /\ x = y.
Proof.
  intros Q H. pose proof (proj1 (forallb_forall _ _) repr_char_checked q Q) as K. cbn beta in K.
  pose proof (proj1 (forallb_forall _ _) K c (in_all_ascii c)) as K'. cbn beta in K'. apply andb_prop in K' as [_ K'].
  pose proof (proj1 (forallb_forall _ _) K' d (in_all_ascii d)) as E. cbn beta in E. apply orb_prop in E as [E|E].
  - apply Ascii.eqb_eq in E as ->. split; [reflexivity|]. now apply sapp_inv in H.
  - exfalso. now apply (clash_neq _ _ x y) in E.
Qed.
Lemma repr_char_quote q c x y : In q quotes -> repr_char q c +++ x <> one_char q +++ y.
Proof.
  intros Q. pose proof (proj1 (forallb_forall _ _) repr_char_checked q Q) as K. cbn beta in K.
  pose proof (proj1 (forallb_forall _ _) K c (in_all_ascii c)) as K'. cbn beta in K'. apply andb_prop in K' as [K' _].
  now apply clash_neq.
Qed.
Lemma repr_code : code (fun _ => True) repr_str.
Proof.
  assert (G : forall q, In q quotes -> forall a b x y,
    repr_chars q a +++ one_char q +++ x = repr_chars q b +++ one_char q +++ y -> a = b /\ x = y).
  { intros q Q. induction a as [|c a IH]; intros [|d b] x y H; cbn [repr_chars] in H; rewrite ?sapp_assoc in H.
    - cbn in H. injection H as H. auto.
    - symmetry in H. now apply repr_char_quote in H.
    - now apply repr_char_quote in H.
    - apply repr_char_code in H as [-> H]; [|exact Q]. apply IH in H as [-> ->]. auto. }
  intros a b x y _ _ H. unfold repr_str in H.
  set (q := if has_char "'" a && negb (has_char """" a) then """"%char else "'"%char) in H.
  set (q' := if has_char "'" b && negb (has_char """" b) then """"%char else "'"%char) in H.
  assert (Q : In q quotes) by (unfold q; destruct (_ && _); cbn; auto).
  assert (E : q = q') by (cbn in H; now injection H). rewrite <- E in H. rewrite !sapp_assoc in H. apply sapp_inv in H.
  now apply (G q Q) in H.
Qed.

(** ** Objects *)
Definition line (n t r : string) : string := tab +++ " " +++ n +++ ": " +++ t +++ newline +++ r.
Fixpoint lines (attrs : list (string * string)) (x : string) : string :=
  match attrs with [] => x | p :: l => line (fst p) (snd p) (lines l x) end.
Lemma cat_lines l x : cat_all (map (fun p => tab +++ " " +++ fst p +++ ": " +++ snd p +++ newline) l) +++ x = lines l x.
Proof.
  induction l as [|p l IH]; [reflexivity|]. cbn [map cat_all fold_right lines]. unfold line. rewrite <- IH.
  unfold cat_all. now rewrite !sapp_assoc.
Qed.
Definition heading (cls : string) (attrs : list (string * string)) : string :=
  ("<class '" +++ cls +++ "'>") +++ match attrs with [] => newline | _ => ": " +++ newline end.
Lemma object_text cls attrs x : standard_repr cls attrs +++ x = heading cls attrs +++ lines attrs x.
Proof.
  unfold standard_repr, heading. rewrite !sapp_assoc. do 3 f_equal. rewrite <- cat_lines. destruct attrs; now rewrite ?sapp_assoc.
Qed.
Lemma line_same n t t' r r' : line n t r = line n t' r' -> t +++ newline +++ r = t' +++ newline +++ r'.
Proof. unfold line. intros H. do 4 apply sapp_inv in H. exact H. Qed.
Lemma newline_inv x y : newline +++ x = newline +++ y -> x = y.
Proof. apply sapp_inv. Qed.
(** Texts of objects start with [<]. *)
Lemma object_bracket cls attrs x y : standard_repr cls attrs +++ x <> "]" +++ y.
Proof. unfold standard_repr. cbn. discriminate. Qed.
Lemma object_none cls attrs x y : standard_repr cls attrs +++ x <> "None" +++ y.
Proof. unfold standard_repr. cbn. discriminate. Qed.
