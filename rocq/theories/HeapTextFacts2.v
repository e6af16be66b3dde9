(** * Texts of invocations with variables *)
From Coq Require Import ZArith DecimalString DecimalZ DecimalPos Lia.
Require Import Verif.PyBase Verif.Access Verif.IOInfo Verif.IOVars Verif.ParaTypes Verif.Text Verif.Heap Verif.HeapText
  Verif.SpecShlex Verif.SpecHeap Verif.SpecHeapEq Verif.SpecText Verif.SpecHeapText Verif.HeapFacts Verif.ShlexFacts Verif.TextFacts Verif.ReportFacts Verif.HeapTextFacts.

(** ** Numbers *)
Definition numeral (c : ascii) : Prop := In c ["-"; "0"; "1"; "2"; "3"; "4"; "5"; "6"; "7"; "8"; "9"]%char.
Lemma uint_chars d : all_chars numeral (NilEmpty.string_of_uint d).
Proof. induction d; cbn; auto; split; auto; unfold numeral; cbn; tauto. Qed.
Lemma uint_chars0 d : all_chars numeral (NilZero.string_of_uint d).
Proof. destruct d; cbn; try (split; [unfold numeral; cbn; tauto|apply uint_chars]). split; [unfold numeral; cbn; tauto|exact I]. Qed.
Lemma decimal_chars v : all_chars numeral (decimal v).
Proof. unfold decimal. destruct (Z.to_int v); cbn; [apply uint_chars0|]. split; [unfold numeral; cbn; tauto|apply uint_chars0]. Qed.
Lemma decimal_inj v w : decimal v = decimal w -> v = w.
Proof.
  intros E. apply (f_equal NilZero.int_of_string) in E. unfold decimal in E.
  assert (N : forall z, Z.to_int z <> Decimal.Pos Decimal.Nil /\ Z.to_int z <> Decimal.Neg Decimal.Nil).
  { intros [|p|p]; cbn; split; try discriminate; intros [= X]; now apply Unsigned.to_uint_nonnil in X. }
  rewrite !NilZero.isi in E by apply N. injection E as E. apply (f_equal Z.of_int) in E. now rewrite !DecimalZ.of_to in E.
Qed.
Lemma decimal_nonempty v : decimal v <> "".
Proof. unfold decimal. destruct (Z.to_int v) as [d|d]; cbn; [destruct d; discriminate|discriminate]. Qed.
(** The text goes on with something that belongs to no number. *)
Definition stop (x : string) : Prop := match x with "" => True | String c _ => ~ numeral c end.
Lemma numerals_code s : forall t x y, all_chars numeral s -> all_chars numeral t -> stop x -> stop y -> s +++ x = t +++ y -> s = t /\ x = y.
Proof.
  induction s as [|c s IH]; intros [|d t] x y S T X Y E; cbn in *.
  - auto.
  - exfalso. subst x. cbn in X. tauto.
  - exfalso. subst y. cbn in Y. tauto.
  - injection E as <- E. destruct S, T. apply IH in E as (-> & ->); auto.
Qed.
Lemma decimal_code v w x y : stop x -> stop y -> decimal v +++ x = decimal w +++ y -> v = w /\ x = y.
Proof. intros X Y E. apply numerals_code in E as (E & ->); auto using decimal_chars. split; [now apply decimal_inj|reflexivity]. Qed.
Lemma decimal_first v x c y : decimal v +++ x = String c y -> numeral c.
Proof.
  intros E. pose proof (decimal_chars v) as D. pose proof (decimal_nonempty v) as N. destruct (decimal v) as [|d s]; [congruence|].
  cbn in E. injection E as <- _. apply D.
Qed.
Lemma stop_at s x : (match s with String c _ => ~ numeral c | _ => False end) -> stop (s +++ x).
Proof. destruct s; cbn; tauto. Qed.
Ltac stops := match goal with |- stop _ => unfold newline, one_char; cbn [String.append stop]; unfold numeral; cbn; intuition discriminate end.

Definition ended {A} (ok : A -> Prop) (f : A -> string) : Prop :=
  forall a b x y, ok a -> ok b -> stop x -> stop y -> f a +++ x = f b +++ y -> a = b /\ x = y.
Lemma code_ended {A} (ok : A -> Prop) f : code ok f -> ended ok f.
Proof. intros C a b x y A0 B _ _. now apply C. Qed.
Lemma joined_code {A} (ok : A -> Prop) (f : A -> string) (close : ascii) :
  ~ numeral close -> close <> ","%char -> (forall a x y, ok a -> f a +++ x <> String close y) -> ended ok f ->
  forall l m x y, Forall ok l -> Forall ok m -> join (map f l) +++ String close x = join (map f m) +++ String close y -> l = m /\ x = y.
Proof.
  intros C K N E. induction l as [|a l IH]; intros m x y L M H.
  - destruct m as [|b m]; cbn [map] in H; [cbn in H; injection H as H; auto|]. exfalso. inversion M; subst.
    rewrite join_cons in H. destruct (map f m); rewrite ?sapp_assoc in H; cbn [join String.append] in H; symmetry in H; now apply N in H.
  - inversion L; subst. destruct m as [|b m]; cbn [map] in H.
    + exfalso. rewrite join_cons in H. destruct (map f l); rewrite ?sapp_assoc in H; cbn [join String.append] in H; now apply N in H.
    + inversion M; subst. rewrite !join_cons in H.
      destruct l as [|a' l]; destruct m as [|b' m]; cbn [map] in H; cbv iota in H; rewrite ?sapp_assoc in H;
        (apply E in H; [|assumption|assumption|first [exact C|stops]..]); destruct H as [-> H].
      * injection H as ->. auto.
      * injection H as H _. now destruct K.
      * injection H as H _. now destruct K.
      * apply (sapp_inv ", ") in H. destruct (IH (b' :: m) x y) as [F ->]; auto. now rewrite F.
Qed.

(** ** Values *)
Definition val_text (p : pyval) : string :=
  match p with
  | PNone => "None"
  | PVar v => decimal v
  | PArg s => text (shown_arg (ArgString s))
  | PRes r => text (shown_resource r)
  end.
Definition flag_text (f : flag_el) : string :=
  match f with
  | FFlag n => text (shown_flag n)
  | FOptIO n p => standard_repr (datatypes +++ "BasicDatatypesWithIO.OptionWithIO") [("option_name", n); ("option_arg", val_text p)]
  | FOptVar _ _ => ""
  end.
Definition entry_text (e : Z * access) : string := decimal (fst e) +++ ": " +++ text (shown_access (snd e)).
Definition inv_text (full : string) (k : option agg_kind) (c : civ) (es : list (Z * access)) : string :=
  standard_repr full
    (match k with Some k => [("kind", "AggregatorKindEnum." +++ agg_kind_name k)] | None => [] end ++
     [("cmd_name", v_cmd c); ("flag_option_list", "[" +++ join (map flag_text (v_flags c)) +++ "]");
      ("operand_list", "[" +++ join (map val_text (v_ops c)) +++ "]");
      ("implicit_use_of_streaming_input", val_text (v_in c)); ("implicit_use_of_streaming_output", val_text (v_out c));
      ("access_map", "{" +++ join (map entry_text es) +++ "}")]).

Section Views.
  Context (address : loc -> string) (h : heap) (O : set_in_order h).
  Lemma class_attr x cls name v : attr h x cls name = Some v -> exists a attrs, x = HRef a /\ nth_error h a = Some (OInst cls attrs) /\ assoc_s attrs name = Some v.
  Proof.
    unfold attr. destruct x as [| | | | | | |a]; try discriminate. destruct (nth_error h a) as [[| |c attrs]|] eqn:X; try discriminate.
    destruct (String.eqb_spec c cls) as [->|]; [|discriminate]. eauto.
  Qed.
  Lemma one_attr a cls attrs n v : nth_error h a = Some (OInst cls attrs) -> attributes cls = Some [n] -> assoc_s attrs n = Some v -> attrs = [(n, v)].
  Proof.
    intros X A S. apply nth_error_In in X. apply O in X as (X & _). specialize (X _ A). destruct attrs as [|[n1 v1] [|]]; try discriminate.
    injection X as ->. cbn in S. rewrite String.eqb_refl in S. congruence.
  Qed.
  Lemma two_attrs a cls attrs n n' v v' : nth_error h a = Some (OInst cls attrs) -> attributes cls = Some [n; n'] -> n <> n' ->
    assoc_s attrs n = Some v -> assoc_s attrs n' = Some v' -> attrs = [(n, v); (n', v')].
  Proof.
    intros X A N S S'. apply nth_error_In in X. apply O in X as (X & _). specialize (X _ A). destruct attrs as [|[n1 v1] [|[n2 v2] [|]]]; try discriminate.
    injection X as -> ->. cbn in S, S'. rewrite String.eqb_refl in S. destruct (String.eqb_spec n n'); [contradiction|]. rewrite String.eqb_refl in S'. congruence.
  Qed.
  Lemma inst_step n q a c attrs : nth_error h a = Some (OInst c attrs) ->
    py_text address (S n) h q (HRef a) =
    if mem c without_repr then Some ("<" +++ qualified c +++ " object at " +++ address a +++ ">")
    else match all_some (map (fun p => py_text address n h false (snd p)) attrs) with
         | Some ts => Some (standard_repr (qualified c) (combine (map fst attrs) ts)) | None => None end.
  Proof. intros X. cbn [py_text]. now rewrite X. Qed.
  Lemma access_text v a n q : view_access h v = Some a -> py_text address (S n) h q v = Some (text (shown_access a)).
  Proof.
    unfold view_access. destruct (attr h v "AccessKind" "kind") as [k|] eqn:A; [|discriminate]. destruct k; try discriminate. intros [= ->].
    apply class_attr in A as (l & attrs & -> & X & S). pose proof (one_attr _ _ _ _ _ X eq_refl S) as ->. rewrite (inst_step _ _ _ _ _ X). destruct n; reflexivity.
  Qed.
  Lemma value_text v p n q : view_val h v = Some p -> py_text address (S (S n)) h q v = Some (val_text p).
  Proof.
    unfold view_val. destruct v as [| | | | | | |l]; try discriminate; try (intros [= <-]; reflexivity).
    destruct (attr h (HRef l) "ArgStringType" "name") as [k|] eqn:A.
    { destruct k; try discriminate. intros [= <-]. apply class_attr in A as (l1 & attrs & [= <-] & X & S).
      pose proof (one_attr _ _ _ _ _ X eq_refl S) as ->. rewrite (inst_step _ _ _ _ _ X). destruct n; reflexivity. }
    assert (B : match attr h (HRef l) "StdDescriptorWithIOInfo" "name", attr h (HRef l) "StdDescriptorWithIOInfo" "access" with
                | Some (HStd s), Some r => match view_access h r with Some a => Some (PRes (mkRes (StdDescriptor s) a)) | None => None end
                | _, _ => None
                end = Some p -> py_text address (S (S n)) h q (HRef l) = Some (val_text p)).
    { destruct (attr h (HRef l) "StdDescriptorWithIOInfo" "name") as [k|] eqn:A1; [|discriminate].
      destruct k; try discriminate. destruct (attr h (HRef l) "StdDescriptorWithIOInfo" "access") as [r|] eqn:A2; [|discriminate].
      destruct (view_access h r) as [a|] eqn:VA; [|discriminate]. intros [= <-].
      apply class_attr in A1 as (l1 & attrs & [= <-] & X & S). apply class_attr in A2 as (l2 & attrs2 & [= <-] & X2 & S2). rewrite X in X2. injection X2 as <-.
      pose proof (two_attrs _ _ _ _ _ _ _ X eq_refl ltac:(discriminate) S S2) as ->. rewrite (inst_step _ _ _ _ _ X). cbn [map fst snd all_some].
      rewrite (access_text r a n false VA). reflexivity. }
    destruct (attr h (HRef l) "FileNameWithIOInfo" "name") as [k|] eqn:A1; [|exact B]. destruct k; try exact B.
    destruct (attr h (HRef l) "FileNameWithIOInfo" "access") as [r|] eqn:A2; [|exact B].
    destruct (view_access h r) as [a|] eqn:VA; [|discriminate]. intros [= <-].
    apply class_attr in A1 as (l1 & attrs & [= <-] & X & S). apply class_attr in A2 as (l2 & attrs2 & [= <-] & X2 & S2). rewrite X in X2. injection X2 as <-.
    pose proof (two_attrs _ _ _ _ _ _ _ X eq_refl ltac:(discriminate) S S2) as ->. rewrite (inst_step _ _ _ _ _ X). cbn [map fst snd all_some].
    rewrite (access_text r a n false VA). reflexivity.
  Qed.
  Lemma flag_texts v f n q : view_flag h v = Some f -> (forall m p, f <> FOptVar m p) -> py_text address (S (S (S n))) h q v = Some (flag_text f).
  Proof.
    unfold view_flag. destruct (attr h v "Flag" "flag_name") as [k|] eqn:A.
    { destruct k; try discriminate. intros [= <-] _. apply class_attr in A as (l & attrs & -> & X & S). pose proof X as X'.
      assert (attrs = [("flag_name", HStr s)]) as -> by (eapply one_attr; eauto). rewrite (inst_step _ _ _ _ _ X). reflexivity. }
    assert (B : match attr h v "OptionWithIO" "option_name", attr h v "OptionWithIO" "option_arg" with
                | Some (HStr n), Some y => match view_val h y with Some p => Some (FOptIO n p) | None => None end
                | _, _ => None
                end = Some f -> py_text address (S (S (S n))) h q v = Some (flag_text f)).
    { destruct (attr h v "OptionWithIO" "option_name") as [k|] eqn:A1; [|discriminate]. destruct k; try discriminate.
      destruct (attr h v "OptionWithIO" "option_arg") as [r|] eqn:A2; [|discriminate]. destruct (view_val h r) as [p|] eqn:VA; [|discriminate]. intros [= <-].
      apply class_attr in A1 as (l1 & attrs & -> & X & S). apply class_attr in A2 as (l2 & attrs2 & [= <-] & X2 & S2). rewrite X in X2. injection X2 as <-.
      pose proof (two_attrs _ _ _ _ _ _ _ X eq_refl ltac:(discriminate) S S2) as ->. rewrite (inst_step _ _ _ _ _ X). cbn [map fst snd all_some].
      rewrite (value_text r p n false VA). reflexivity. }
    destruct (attr h v "OptionWithIOVar" "option_name") as [k|] eqn:A1; [|now intros E _; apply B]. destruct k; try (now intros E _; apply B).
    destruct (attr h v "OptionWithIOVar" "option_arg") as [r|] eqn:A2; [|now intros E _; apply B].
    destruct (view_val h r); [|discriminate]. intros [= <-] N. exfalso. eapply N. reflexivity.
  Qed.
  Lemma all_texts {A} (view : heap -> hval -> option A) (f : A -> string) n vs l :
    (forall v p, In p l -> view h v = Some p -> py_text address n h true v = Some (f p)) ->
    Forall2 (fun v p => view h v = Some p) vs l -> all_some (map (py_text address n h true) vs) = Some (map f l).
  Proof.
    intros H F. induction F as [|v p vs l V F IH]; [reflexivity|]. cbn [map all_some]. rewrite (H v p (or_introl eq_refl) V), IH; [reflexivity|].
    intros w r I. apply H. now right.
  Qed.
  Lemma list_step n q a l : nth_error h a = Some (OList l) ->
    py_text address (S n) h q (HRef a) = match all_some (map (py_text address n h true) l) with Some ts => Some ("[" +++ join ts +++ "]") | None => None end.
  Proof. intros X. cbn [py_text]. now rewrite X. Qed.
  Lemma dict_step n q a l : nth_error h a = Some (ODict l) ->
    py_text address (S n) h q (HRef a) =
    match all_some (map (fun p => py_text address n h true (snd p)) l) with
    | Some ts => Some ("{" +++ join (map (fun p => decimal (fst p) +++ ": " +++ snd p) (combine (map fst l) ts)) +++ "}")
    | None => None end.
  Proof. intros X. cbn [py_text]. now rewrite X. Qed.
  Lemma list_texts {A} (view : heap -> hval -> option A) (f : A -> string) n q x l :
    (forall v p, In p l -> view h v = Some p -> py_text address n h true v = Some (f p)) ->
    views view h x l -> py_text address (S n) h q x = Some ("[" +++ join (map f l) +++ "]").
  Proof.
    intros H (a & vs & -> & X & F). rewrite (list_step _ _ _ _ X). now rewrite (all_texts view f n vs l H F).
  Qed.
  Lemma entries_text n q am vs es : nth_error h am = Some (ODict vs) ->
    Forall2 (fun e e' => fst e = fst e' /\ view_access h (snd e) = Some (snd e')) vs es ->
    py_text address (S (S n)) h q (HRef am) = Some ("{" +++ join (map entry_text es) +++ "}").
  Proof.
    intros X F.
    assert (G : all_some (map (fun p => py_text address (S n) h true (snd p)) vs) = Some (map (fun e => text (shown_access (snd e))) es)).
    { clear X. induction F as [|e e' vs es (K & V) F IH]; [reflexivity|]. cbn [map all_some]. now rewrite (access_text _ _ n true V), IH. }
    rewrite (dict_step _ _ _ _ X), G. do 4 f_equal. clear X G. induction F as [|e e' vs es (K & V) F IH]; [reflexivity|]. cbn [map combine fst snd].
    rewrite IH, K. reflexivity.
  Qed.
  Definition printable (c : civ) : Prop := Forall (fun f => forall m p, f <> FOptVar m p) (v_flags c).
  Lemma invocation_text x cls k c es n q :
    has_kind h x cls k -> views_invocation h x c -> access_entries h x cls es -> printable c ->
    py_text address (S (S (S (S (S n))))) h q x = Some (inv_text (qualified cls) k c es).
  Proof.
    intros ((a & attrs & -> & X) & K) (a0 & cls0 & attrs0 & fl & ol & i & o & am & [= <-] & X0 & _ & S1 & S2 & V2 & S3 & V3 & S4 & V4 & S5 & V5 & S6 & _)
      (am' & vs & SA & XA & FA) P.
    rewrite X in X0. injection X0 as <- <-. rewrite (inst_step _ _ _ _ _ X).
    unfold attr in SA. rewrite X, String.eqb_refl, S6 in SA. injection SA as ->.
    assert (T2 := list_texts view_flag flag_text (S (S (S n))) false fl (v_flags c) ltac:(intros v p I V; apply flag_texts; [exact V|now apply (proj1 (Forall_forall _ _) P)]) V2).
    assert (T3 := list_texts view_val val_text (S (S (S n))) false ol (v_ops c) ltac:(intros v p I V; now apply value_text) V3).
    assert (T4 := value_text i _ (S (S n)) false V4). assert (T5 := value_text o _ (S (S n)) false V5).
    assert (T6 := entries_text (S (S n)) false am' vs es XA FA).
    pose proof (nth_error_In _ _ X) as I. apply O in I as (I1 & I2).
    assert (G : forall a1 a2 a3 a4 a5 a6 rest, attrs = rest ++ [("cmd_name", a1); ("flag_option_list", a2); ("operand_list", a3);
        ("implicit_use_of_streaming_input", a4); ("implicit_use_of_streaming_output", a5); ("access_map", a6)] ->
        (rest = [] /\ k = None \/ exists kk, k = Some kk /\ rest = [("kind", HKind kk)]) -> mem cls without_repr = false ->
        (if mem cls without_repr then Some ("<" +++ qualified cls +++ " object at " +++ address a +++ ">")
         else match all_some (map (fun p => py_text address (S (S (S (S n)))) h false (snd p)) attrs) with
              | Some ts => Some (standard_repr (qualified cls) (combine (map fst attrs) ts)) | None => None end) = Some (inv_text (qualified cls) k c es)).
    { intros a1 a2 a3 a4 a5 a6 rest E R W. rewrite W. subst attrs.
      destruct R as [(-> & ->)|(kk & -> & ->)]; cbn in S1, S2, S3, S4, S5, S6;
        injection S1 as ->; injection S2 as ->; injection S3 as ->; injection S4 as ->; injection S5 as ->; injection S6 as ->;
        cbn [app map snd fst all_some]; rewrite T2, T3, T4, T5, T6; reflexivity. }
    destruct k as [k|].
    - destruct K as (-> & SK). specialize (I2 eq_refl). unfold attr in SK. rewrite X, String.eqb_refl in SK.
      destruct attrs as [|[n0 a0] [|[n1 a1] [|[n2 a2] [|[n3 a3] [|[n4 a4] [|[n5 a5] [|[n6 a6] [|]]]]]]]]; try discriminate I2.
      injection I2 as -> -> -> -> -> -> ->. cbn in SK. injection SK as ->. apply (G a1 a2 a3 a4 a5 a6 [("kind", HKind k)]); eauto.
    - assert (A : attributes cls = Some invocation_attributes) by (destruct K as [<-|[<-|[]]]; reflexivity). specialize (I1 _ A).
      assert (W : mem cls without_repr = false) by (destruct K as [<-|[<-|[]]]; reflexivity).
      destruct attrs as [|[n1 a1] [|[n2 a2] [|[n3 a3] [|[n4 a4] [|[n5 a5] [|[n6 a6] [|]]]]]]]; try discriminate I1.
      injection I1 as -> -> -> -> -> ->. apply (G a1 a2 a3 a4 a5 a6 []); auto.
  Qed.
End Views.

(** ** Reading the texts *)
Lemma numeral_clash c v x y : ~ numeral c -> decimal v +++ x <> String c y.
Proof. intros N E. apply N. eapply decimal_first. exact E. Qed.
Definition val_arg (p : pyval) : option io_arg :=
  match p with PArg s => Some (ArgString s) | PRes r => Some (Res r) | _ => None end.
Lemma val_object p a x : val_arg p = Some a -> val_text p = text (shown_arg a) /\ exists y, val_text p +++ x = String "<" y.
Proof.
  destruct p as [|v|s|r]; try discriminate; intros [= <-]; (split; [reflexivity|]).
  - eexists. reflexivity.
  - destruct r as [[m|d] a]; eexists; reflexivity.
Qed.
Lemma val_start p x : (exists y, val_text p +++ x = String "N" y) \/ (exists y, val_text p +++ x = String "<" y) \/
  exists c y, val_text p +++ x = String c y /\ numeral c.
Proof.
  destruct (val_arg p) as [a|] eqn:A; [right; left; now apply val_object with a|]. destruct p as [|v| |]; try discriminate.
  - left. eexists. reflexivity.
  - right. right. cbn [val_text]. destruct (decimal v +++ x) as [|c y] eqn:D; [|exists c, y; split; [reflexivity|now apply decimal_first in D]].
    exfalso. apply (decimal_nonempty v). destruct (decimal v); [reflexivity|discriminate].
Qed.
Lemma not_numeral_N : ~ numeral "N"%char. Proof. unfold numeral. cbn. intuition discriminate. Qed.
Lemma not_numeral_lt : ~ numeral "<"%char. Proof. unfold numeral. cbn. intuition discriminate. Qed.
Lemma val_code : ended val_one_line val_text.
Proof.
  intros p r x y P R X Y E.
  assert (OK : forall p a, val_arg p = Some a -> val_one_line p -> arg_one_line a).
  { intros [|v|s|z] a A; try discriminate; injection A as <-; auto. }
  destruct (val_arg p) as [a|] eqn:A; destruct (val_arg r) as [b|] eqn:B.
  - rewrite (proj1 (val_object p a x A)), (proj1 (val_object r b y B)) in E. apply arg_code in E as (-> & ->); eauto.
    split; [|reflexivity]. destruct p, r; cbn in A, B; congruence.
  - exfalso. destruct (val_object p a x A) as (_ & z & Z). rewrite Z in E. destruct r as [|v| |]; try discriminate. symmetry in E. apply numeral_clash in E; [exact E|apply not_numeral_lt].
  - exfalso. destruct (val_object r b y B) as (_ & z & Z). rewrite Z in E. destruct p as [|v| |]; try discriminate. apply numeral_clash in E; [exact E|apply not_numeral_lt].
  - destruct p as [|v| |]; try discriminate; destruct r as [|w| |]; try discriminate; cbn [val_text] in E.
    + apply sapp_inv in E. auto.
    + exfalso. symmetry in E. apply numeral_clash in E; [exact E|apply not_numeral_N].
    + exfalso. apply numeral_clash in E; [exact E|apply not_numeral_N].
    + apply decimal_code in E as (-> & ->); auto.
Qed.
Lemma val_bracket p x y : val_text p +++ x <> String "]" y.
Proof.
  intros E. destruct (val_start p x) as [(z & Z)|[(z & Z)|(c & z & Z & C)]]; rewrite Z in E; try discriminate. injection E as -> _.
  unfold numeral in C. cbn in C. intuition discriminate.
Qed.
Definition flag_ok (f : flag_el) : Prop := flag_one_line f /\ forall m p, f <> FOptVar m p.
Lemma stop_newline x : stop (newline +++ x). Proof. stops. Qed.
Lemma flag_el_code : code flag_ok flag_text.
Proof.
  intros [n|n p|n p] [m|m r|m r] x y (A & A') (B & B') H; try (now destruct (A' n p)); try (now destruct (B' m r));
    cbn [flag_text] in H; unfold shown_flag in H; objects H; try differ H; same H; apply line_same in H; cbn in A, B.
  - apply line_inv in H as [-> ->]; auto.
  - apply line_inv in H as [-> H]; try tauto. apply line_same in H. apply val_code in H as [-> H]; try tauto; try apply stop_newline.
    now apply newline_inv in H as ->.
Qed.
Lemma flag_bracket f x y : flag_ok f -> flag_text f +++ x <> String "]" y.
Proof. intros (_ & F). destruct f as [n|n p|n p]; try (exfalso; exact (F n p eq_refl)); cbn [flag_text]; unfold shown_flag; cbn [text]; unfold standard_repr; discriminate. Qed.
Lemma entry_code : code (fun _ => True) entry_text.
Proof.
  intros [k a] [j b] x y _ _ H. unfold entry_text in H. cbn [fst snd] in H. rewrite !sapp_assoc in H.
  apply decimal_code in H as (-> & H); try stops. apply sapp_inv in H. apply access_code in H as [-> ->]; auto.
Qed.
Lemma entry_brace e x y : entry_text e +++ x <> String "}" y.
Proof. unfold entry_text. rewrite !sapp_assoc. apply numeral_clash. unfold numeral. cbn. intuition discriminate. Qed.
Lemma no_num c : In c ["]"; "}"]%char -> ~ numeral c.
Proof. unfold numeral. cbn. intuition (subst; discriminate). Qed.
Lemma flags_list l m x y : Forall flag_ok l -> Forall flag_ok m ->
  ("[" +++ join (map flag_text l) +++ "]") +++ x = ("[" +++ join (map flag_text m) +++ "]") +++ y -> l = m /\ x = y.
Proof.
  intros L M H. rewrite !sapp_assoc in H. apply sapp_inv in H. revert H. apply (joined_code flag_ok flag_text "]"); auto.
  - apply no_num. cbn; auto.
  - discriminate.
  - intros. now apply flag_bracket.
  - apply code_ended, flag_el_code.
Qed.
Lemma vals_list l m x y : Forall val_one_line l -> Forall val_one_line m ->
  ("[" +++ join (map val_text l) +++ "]") +++ x = ("[" +++ join (map val_text m) +++ "]") +++ y -> l = m /\ x = y.
Proof.
  intros L M H. rewrite !sapp_assoc in H. apply sapp_inv in H. revert H. apply (joined_code val_one_line val_text "]"); auto.
  - apply no_num. cbn; auto.
  - discriminate.
  - intros. apply val_bracket.
  - apply val_code.
Qed.
Lemma entries_list l m x y : ("{" +++ join (map entry_text l) +++ "}") +++ x = ("{" +++ join (map entry_text m) +++ "}") +++ y -> l = m /\ x = y.
Proof.
  intros H. rewrite !sapp_assoc in H. apply sapp_inv in H. revert H. apply (joined_code (fun _ => True) entry_text "}"); auto.
  - apply no_num. cbn; auto.
  - discriminate.
  - intros. apply entry_brace.
  - apply code_ended, entry_code.
  - now apply Forall_forall.
  - now apply Forall_forall.
Qed.
Definition same_text_parts (c d : civ) : Prop :=
  v_cmd c = v_cmd d /\ v_flags c = v_flags d /\ v_ops c = v_ops d /\ v_in c = v_in d /\ v_out c = v_out d.
Lemma inv_code cls k c es cls' k' d es' :
  match k with Some _ => cls = "Aggregator" | None => In cls ["CommandInvocationWithIOVars"; "Mapper"] end ->
  match k' with Some _ => cls' = "Aggregator" | None => In cls' ["CommandInvocationWithIOVars"; "Mapper"] end ->
  civ_one_line c -> printable c -> civ_one_line d -> printable d ->
  inv_text (qualified cls) k c es = inv_text (qualified cls') k' d es' ->
  cls = cls' /\ k = k' /\ same_text_parts c d /\ es = es'.
Proof.
  intros K K' (C1 & C2 & C3 & C4 & C5) P (D1 & D2 & D3 & D4 & D5) Q H.
  assert (F : Forall flag_ok (v_flags c)) by (apply Forall_forall; intros f I; split; [now apply (proj1 (Forall_forall _ _) C2)|now apply (proj1 (Forall_forall _ _) P)]).
  assert (G : Forall flag_ok (v_flags d)) by (apply Forall_forall; intros f I; split; [now apply (proj1 (Forall_forall _ _) D2)|now apply (proj1 (Forall_forall _ _) Q)]).
  assert (H' : inv_text (qualified cls) k c es +++ "" = inv_text (qualified cls') k' d es' +++ "") by now rewrite H. clear H. rename H' into H.
  unfold inv_text in H. rewrite !object_text in H.
  assert (B : forall x y, lines [("cmd_name", v_cmd c); ("flag_option_list", "[" +++ join (map flag_text (v_flags c)) +++ "]");
      ("operand_list", "[" +++ join (map val_text (v_ops c)) +++ "]");
      ("implicit_use_of_streaming_input", val_text (v_in c)); ("implicit_use_of_streaming_output", val_text (v_out c));
      ("access_map", "{" +++ join (map entry_text es) +++ "}")] x = lines [("cmd_name", v_cmd d); ("flag_option_list", "[" +++ join (map flag_text (v_flags d)) +++ "]");
      ("operand_list", "[" +++ join (map val_text (v_ops d)) +++ "]");
      ("implicit_use_of_streaming_input", val_text (v_in d)); ("implicit_use_of_streaming_output", val_text (v_out d));
      ("access_map", "{" +++ join (map entry_text es') +++ "}")] y -> same_text_parts c d /\ es = es').
  { clear H. intros x y H. cbn [lines fst snd] in H. apply line_same in H. apply line_inv in H as (E1 & H); auto.
    apply line_same in H. apply flags_list in H as (E2 & H); auto. apply newline_inv in H.
    apply line_same in H. apply vals_list in H as (E3 & H); auto. apply newline_inv in H.
    apply line_same in H. apply val_code in H as (E4 & H); auto using stop_newline. apply newline_inv in H.
    apply line_same in H. apply val_code in H as (E5 & H); auto using stop_newline. apply newline_inv in H.
    apply line_same in H. apply entries_list in H as (E6 & H). repeat split; auto. }
  destruct k as [k|]; destruct k' as [k'|].
  - subst cls cls'. apply sapp_inv in H. cbn [app] in H.
    cbn [lines fst snd] in H. apply line_same in H. apply line_inv in H as (E & H); [|apply agg_kind_line..]. apply agg_kind_inj in E as ->.
    apply B in H as (S & ->). auto.
  - subst cls. destruct K' as [<-|[<-|[]]]; differ H.
  - subst cls'. destruct K as [<-|[<-|[]]]; differ H.
  - destruct K as [<-|[<-|[]]]; destruct K' as [<-|[<-|[]]]; try (differ H); apply sapp_inv in H; apply B in H as (S & ->); auto.
Qed.
