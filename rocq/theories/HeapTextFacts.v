(** * Facts about the texts of objects *)
From Coq Require Import ZArith DecimalString Lia.
Require Import Verif.PyBase Verif.Access Verif.IOInfo Verif.IOVars Verif.ParaTypes Verif.Text Verif.Heap Verif.HeapText
  Verif.SpecHeap Verif.SpecHeapEq Verif.SpecText Verif.SpecHeapText Verif.HeapFacts Verif.HeapCopy Verif.ShlexFacts Verif.TextFacts.

Lemma Forall2_impl {A B} (P Q : A -> B -> Prop) l l' : (forall a b, P a b -> Q a b) -> Forall2 P l l' -> Forall2 Q l l'.
Proof. intros H. induction 1; constructor; auto. Qed.
Lemma class_facts c b full : In (c, b, full) classes -> qualified c = full /\ mem c without_repr = negb b.
Proof.
  unfold classes. intros H. repeat (destruct H as [H|H]; [injection H as <- <- <-; split; reflexivity|]). destruct H.
Qed.
Lemma members_text v name n q : In (v, (name, n)) members -> forall address k h,
  py_text address k h q v = Some (if q then "<" +++ name +++ ": " +++ n +++ ">" else name).
Proof.
  unfold members. intros H. repeat (destruct H as [H|H]; [injection H as <- <- <-; intros address k h; destruct k, q; reflexivity|]). destruct H.
Qed.
Lemma all_some_iff {A} (l : list (option A)) : forall r, all_some l = Some r <-> Forall2 (fun x a => x = Some a) l r.
Proof.
  induction l as [|x l IH]; intros r; cbn.
  - split; [intros [= <-]; constructor|intros F; inversion F; reflexivity].
  - split.
    + destruct x as [a|]; [|discriminate]. destruct (all_some l) as [r'|]; [|discriminate]. intros [= <-]. constructor; [reflexivity|]. now apply IH.
    + intros F. inversion F as [|x' a l' r' E F']; subst. apply IH in F'. now rewrite F'.
Qed.
Lemma all_some_map {A B} (f : A -> option B) (l : list A) r : all_some (map f l) = Some r <-> Forall2 (fun x a => f x = Some a) l r.
Proof.
  rewrite all_some_iff. revert r. induction l as [|x l IH]; intros r; cbn; split; intros F; inversion F; subst; constructor; auto; now apply IH.
Qed.
Lemma concat_cons x l : String.concat "" (x :: l) = x +++ String.concat "" l.
Proof. destruct l; [now rewrite sapp_nil_r|reflexivity]. Qed.
Lemma concat_lines (l : list (string * string)) :
  cat_all (map (fun p => tab +++ " " +++ fst p +++ ": " +++ snd p +++ newline) l) =
  String.concat "" (map (fun p => attribute_line (fst p) (snd p)) l).
Proof.
  induction l as [|p l IH]; [reflexivity|]. cbn [map]. rewrite concat_cons, <- IH. reflexivity.
Qed.
Lemma object_spec c full at_ attrs : qualified c = full ->
  standard_repr (qualified c) (at_ :: attrs) =
  "<class '" +++ full +++ "'>: " +++ one_newline +++ String.concat "" (map (fun p => attribute_line (fst p) (snd p)) (at_ :: attrs)).
Proof.
  intros <-. unfold standard_repr. rewrite concat_lines. rewrite !sapp_assoc. reflexivity.
Qed.

Section Texts.
  Context (address : loc -> string) (h : heap).
  Notation text_of := (py_text address).
  Lemma text_more q v : forall n m t, n <= m -> text_of n h q v = Some t -> text_of m h q v = Some t.
  Proof.
    intros n m t L. revert q v t m L. induction n as [|n IH]; intros q v t m L E.
    - destruct v; destruct m; cbn in *; congruence.
    - destruct m as [|m]; [lia|]. destruct v as [| | | | | | |a]; cbn [py_text] in *; try exact E.
      destruct (nth_error h a) as [[l|l|c l]|]; [..|discriminate].
      + destruct (all_some (map (text_of n h true) l)) as [ts|] eqn:T; [|discriminate]. apply all_some_map in T.
        assert (T' : all_some (map (text_of m h true) l) = Some ts); [|now rewrite T'].
        apply all_some_map. eapply Forall2_impl; [|exact T]. cbn. intros x y X. apply IH; [lia|exact X].
      + destruct (all_some (map (fun p => text_of n h true (snd p)) l)) as [ts|] eqn:T; [|discriminate]. apply all_some_map in T.
        assert (T' : all_some (map (fun p => text_of m h true (snd p)) l) = Some ts); [|now rewrite T'].
        apply all_some_map. eapply Forall2_impl; [|exact T]. cbn. intros x y X. apply IH; [lia|exact X].
      + destruct (mem c without_repr); [exact E|].
        destruct (all_some (map (fun p => text_of n h false (snd p)) l)) as [ts|] eqn:T; [|discriminate]. apply all_some_map in T.
        assert (T' : all_some (map (fun p => text_of m h false (snd p)) l) = Some ts); [|now rewrite T'].
        apply all_some_map. eapply Forall2_impl; [|exact T]. cbn. intros x y X. apply IH; [lia|exact X].
  Qed.
  (** One bound for all elements of a list *)
  Lemma common_bound {A} (f : nat -> A -> option string) (l : list A) ts :
    (forall n m x t, n <= m -> f n x = Some t -> f m x = Some t) ->
    Forall2 (fun x t => exists n, f n x = Some t) l ts -> exists n, Forall2 (fun x t => f n x = Some t) l ts.
  Proof.
    intros M. induction 1 as [|x t l ts (n & E) F (m & IH)]; [exists 0; constructor|].
    exists (Nat.max n m). constructor; [eapply M; [|exact E]; lia|]. eapply Forall2_impl; [|exact IH]. cbn. intros y u Y. eapply M; [|exact Y]. lia.
  Qed.
  Lemma known_slot a o v : known h (HRef a) -> nth_error h a = Some o -> In v (slots o) -> known h v.
  Proof. intros K E I l c attrs R X. eapply K; [|exact X]. eapply reaches_slot; eauto. Qed.
  Lemma text_prints : forall n q v t, known h v -> text_of n h q v = Some t -> prints address h q v t.
  Proof.
    assert (IM : forall A (f : A -> hval) (P : A -> string -> Prop) (n : nat) q (l : list A) ts,
      (forall x, In x l -> forall t, text_of n h q (f x) = Some t -> P x t) ->
      Forall2 (fun x t => text_of n h q (f x) = Some t) l ts -> Forall2 P l ts).
    { intros A f P n q l ts S F. induction F as [|x t l ts E F IH]; constructor; [apply S; [now left|exact E]|]. apply IH. intros y I. apply S. now right. }
    induction n as [|n IH]; intros q v t K E.
    - destruct v as [| | |[]|[]|[]|[]|]; cbn in E; try discriminate; injection E as <-; try constructor;
        try (destruct q; (eapply prints_member_quoted || eapply prints_member); cbn; tauto).
      destruct q; constructor.
    - destruct v as [| | |[]|[]|[]|[]|a]; cbn [py_text] in E;
        try (injection E as <-; try constructor; destruct q; (constructor || eapply prints_member_quoted || eapply prints_member); cbn; tauto).
      destruct (nth_error h a) as [[l|l|c l]|] eqn:X; [..|discriminate].
      + destruct (all_some (map (text_of n h true) l)) as [ts|] eqn:T; [|discriminate]. injection E as <-. apply all_some_map in T.
        eapply prints_list; [exact X|]. eapply (IM _ (fun x => x)); [|exact T]. intros x I u U. eapply IH; [|exact U]. eapply known_slot; eauto.
      + destruct (all_some (map (fun p => text_of n h true (snd p)) l)) as [ts|] eqn:T; [|discriminate]. injection E as <-. apply all_some_map in T.
        eapply prints_dict; [exact X|].
        assert (T' : Forall2 (fun x t => prints address h true (snd x) t) l ts).
        { eapply (IM _ snd); [|exact T]. intros x I u U. eapply IH; [|exact U]. eapply known_slot; eauto. cbn. now apply in_map. }
        clear -T'. induction T' as [|[k v] t l ts P T IH]; cbn; constructor; eauto.
      + destruct (K a c l) as (b & full & C); [constructor; apply nth_error_Some; congruence|exact X|]. destruct (class_facts c b full C) as (Q & W).
        rewrite W in E. destruct b; cbn [negb] in E.
        * destruct (all_some (map (fun p => text_of n h false (snd p)) l)) as [ts|] eqn:T; [|discriminate]. injection E as <-. apply all_some_map in T.
          destruct l as [|at_ l].
          -- inversion T; subst. cbn [map combine]. unfold standard_repr. cbn [map cat_all fold_right]; rewrite sapp_nil_r, !sapp_assoc. eapply prints_bare; eauto.
          -- assert (T' : Forall2 (fun x t => prints address h false (snd x) t) (at_ :: l) ts).
             { eapply (IM _ snd); [|exact T]. intros x I u U. eapply IH; [|exact U]. eapply known_slot; eauto. cbn [slots]. now apply in_map. }
             inversion T' as [|x1 t1 l1 ts1 P1 T1]; subst. cbn [map combine]. rewrite (object_spec c _ _ _ eq_refl). eapply prints_object; [exact X|exact C|].
             change (Forall2 (fun e t => exists u, prints address h false (snd e) u /\ t = attribute_line (fst e) u) (at_ :: l)
               (map (fun p => attribute_line (fst p) (snd p)) (combine (map fst (at_ :: l)) (t1 :: ts1)))).
             clear -T'. revert T'. generalize (at_ :: l) (t1 :: ts1). clear. induction 1 as [|[k v] t l ts P T IH]; cbn; constructor; eauto.
        * injection E as <-. rewrite Q. eapply prints_address; eauto.
  Qed.
  Lemma prints_text : forall q v t, prints address h q v t -> exists n, text_of n h q v = Some t.
  Proof.
    fix IH 4. intros q v t P. destruct P as [q|q v|s|s|v name n I|v name n I|q a vs ts X F|q a es ts X F|q a c full X C|q a c full at_ attrs ts X C F|q a c full attrs X C].
    - now exists 0.
    - now exists 0.
    - now exists 0.
    - now exists 0.
    - exists 0. exact (members_text v name n false I address 0 h).
    - exists 0. exact (members_text v name n true I address 0 h).
    - assert (G : Forall2 (fun x u => exists n, text_of n h true x = Some u) vs ts).
      { clear X. induction F as [|x u vs ts P F IHF]; constructor; [exact (IH _ _ _ P)|exact IHF]. }
      apply (common_bound (fun n x => text_of n h true x)) in G as (n & G); [|intros; eapply text_more; eauto].
      exists (S n). cbn [py_text]. rewrite X. apply all_some_map in G. now rewrite G.
    - assert (G : exists us, Forall2 (fun x u => exists n, text_of n h true (snd x) = Some u) es us /\
        ts = map (fun p => decimal (fst p) +++ ": " +++ snd p) (combine (map fst es) us)).
      { clear X. induction F as [|x u es ts (w & P & E) F (us & G1 & G2)]; [exists []; split; [constructor|reflexivity]|].
        exists (w :: us). split; [constructor; [exact (IH _ _ _ P)|exact G1]|]. cbn. now rewrite E, G2. }
      destruct G as (us & G & ->). apply (common_bound (fun n x => text_of n h true (snd x))) in G as (n & G); [|intros; eapply text_more; eauto].
      exists (S n). cbn [py_text]. rewrite X. apply all_some_map in G. now rewrite G.
    - exists 1. cbn [py_text]. rewrite X. destruct (class_facts _ _ _ C) as (Q & ->). cbn [negb map all_some combine]. unfold standard_repr. rewrite Q, sapp_nil_r, !sapp_assoc. reflexivity.
    - assert (G : exists us, Forall2 (fun x u => exists n, text_of n h false (snd x) = Some u) (at_ :: attrs) us /\
        ts = map (fun p => attribute_line (fst p) (snd p)) (combine (map fst (at_ :: attrs)) us)).
      { clear X. induction F as [|x u es ts (w & P & E) F (us & G1 & G2)]; [exists []; split; [constructor|reflexivity]|].
        exists (w :: us). split; [constructor; [exact (IH _ _ _ P)|exact G1]|]. cbn. now rewrite E, G2. }
      destruct G as (us & G & ->). apply (common_bound (fun n x => text_of n h false (snd x))) in G as (n & G); [|intros; eapply text_more; eauto].
      exists (S n). cbn [py_text]. rewrite X. destruct (class_facts _ _ _ C) as (Q & ->). cbn [negb]. pose proof G as G'. apply all_some_map in G. rewrite G.
      inversion G'; subst. cbn [map combine]. now rewrite (object_spec c _ _ _ eq_refl).
    - exists 1. cbn [py_text]. rewrite X. destruct (class_facts _ _ _ C) as (-> & ->). reflexivity.
  Qed.
  Lemma text_ends v : grounded h v -> forall q, exists n t, text_of n h q v = Some t.
  Proof.
    induction 1 as [v N|a o X G IH]; intros q.
    - destruct v as [| | | | | | |a]; try (exists 0; eexists; reflexivity). exfalso. eapply N. reflexivity.
    - assert (B : forall A (f : A -> hval) q (l : list A), (forall x, In x l -> In (f x) (slots o)) -> exists n ts, Forall2 (fun x t => text_of n h q (f x) = Some t) l ts).
      { intros A f q0 l. induction l as [|x l IHl]; intros I; [exists 0, []; constructor|].
        destruct (IH (f x) (I x (or_introl eq_refl)) q0) as (n & t & E). destruct IHl as (m & ts & F); [intros y Y; apply I; now right|].
        exists (Nat.max n m), (t :: ts). constructor; [eapply text_more; [|exact E]; lia|]. eapply Forall2_impl; [|exact F]. cbn. intros y u Y. eapply text_more; [|exact Y]. lia. }
      destruct o as [l|l|c l].
      + destruct (B _ (fun x => x) true l) as (n & ts & F); [auto|]. exists (S n). apply all_some_map in F. cbn [py_text]. rewrite X, F. eauto.
      + destruct (B _ snd true l) as (n & ts & F); [intros x I; cbn; now apply in_map|]. exists (S n). apply all_some_map in F. cbn [py_text]. rewrite X, F. eauto.
      + destruct (B _ snd false l) as (n & ts & F); [intros x I; cbn; now apply in_map|]. exists (S n). apply all_some_map in F. cbn [py_text]. rewrite X, F. destruct (mem c without_repr); eauto.
  Qed.
  Lemma text_unique q v n m t u : text_of n h q v = Some t -> text_of m h q v = Some u -> t = u.
  Proof.
    intros E F. destruct (Nat.le_ge_cases n m) as [L|L]; [apply (text_more q v n m t L) in E|apply (text_more q v m n u L) in F]; congruence.
  Qed.
  Lemma prints_unique q v t u : prints address h q v t -> prints address h q v u -> t = u.
  Proof. intros P Q. apply prints_text in P as (n & P), Q as (m & Q). eapply text_unique; eauto. Qed.
End Texts.

(** ** Objects that did not change *)
Lemma nth_unchanged h h' a o : unchanged h h' -> nth_error h a = Some o -> nth_error h' a = Some o.
Proof. intros U E. rewrite U; [exact E|]. apply nth_error_Some. congruence. Qed.
Lemma text_unchanged address h h' v : unchanged h h' -> grounded h v -> forall n q, py_text address n h' q v = py_text address n h q v.
Proof.
  intros U. induction 1 as [v N|a o X G IH]; intros n q.
  - destruct v; try (destruct n; reflexivity). exfalso. eapply N. reflexivity.
  - destruct n as [|n]; [reflexivity|]. cbn [py_text]. rewrite X, (nth_unchanged _ _ _ _ U X). destruct o as [l|l|c l]; cbn [slots] in IH.
    + rewrite (map_ext_in (py_text address n h' true) (py_text address n h true) l); [reflexivity|]. intros x I. now apply IH.
    + rewrite (map_ext_in (fun p => py_text address n h' true (snd p)) (fun p => py_text address n h true (snd p)) l); [reflexivity|].
      intros x I. apply IH. now apply in_map.
    + rewrite (map_ext_in (fun p => py_text address n h' false (snd p)) (fun p => py_text address n h false (snd p)) l); [reflexivity|].
      intros x I. apply IH. now apply in_map.
Qed.
Lemma known_unchanged h h' v : unchanged h h' -> closed h -> valid h v -> known h v -> known h' v.
Proof.
  intros U C V K l c attrs R. revert V K. induction R as [a L|a o v x E I R IH]; intros V K X.
  - cbn in V. rewrite U in X by exact V. eapply K; [constructor; exact V|exact X].
  - cbn in V. pose proof E as E'. rewrite U in E' by exact V. apply IH; [| |exact X].
    + apply nth_error_In in E'. apply C in E'. rewrite Forall_forall in E'. auto.
    + eapply known_slot; eauto.
Qed.
(** ** Copies *)
Section Copies.
  Context (address : loc -> string) (h h' : heap) (m : memo) (U : unchanged h h')
    (D : forall l l', memo_get m l = Some l' -> done h h' m l l' /\ length h <= l').
  Definition moved (l : loc) : string := match memo_get m l with Some l' => address l' | None => "" end.
  Lemma map_rel {A B C} (R : A -> B -> Prop) (f : A -> C) (g : B -> C) l l' : Forall2 R l l' -> (forall x y, In x l -> R x y -> g y = f x) -> map g l' = map f l.
  Proof. induction 1 as [|x y l l' E F IH]; intros H; [reflexivity|]. cbn. f_equal; [apply H; [now left|exact E]|]. apply IH. intros a b I. apply H. now right. Qed.
  Lemma copy_text v : grounded h v -> forall w n q, val_rel m v w -> py_text address n h' q w = py_text moved n h q v.
  Proof.
    induction 1 as [v N|a o X G IH]; intros w n q V.
    - destruct v; cbn in V; subst; try (destruct n; reflexivity). exfalso. eapply N. reflexivity.
    - cbn in V. destruct (memo_get m a) as [a'|] eqn:M; [subst w|contradiction]. destruct (D _ _ M) as ((o' & vs & A & B & F) & _).
      rewrite X in A. injection A as <-. destruct n as [|n]; [reflexivity|]. cbn [py_text]. rewrite X, B.
      assert (S : forall q, map (py_text address n h' q) vs = map (py_text moved n h q) (slots o)).
      { intros q0. apply (map_rel (val_rel m)); [exact F|]. intros x y I R. now apply IH. }
      assert (P : forall A (l : list (A * hval)) q, slots o = map snd l ->
        map (fun p => py_text address n h' q (snd p)) (combine (map fst l) vs) = map (fun p => py_text moved n h q (snd p)) l /\
        map fst (combine (map fst l) vs) = map fst l).
      { intros A l q0 E. rewrite E in F, S. clear -F S. specialize (S q0). revert vs F S. induction l as [|p l IH]; intros vs F S; inversion F as [|x y l1 l2 R F']; subst; [auto|].
        cbn in *. injection S as S1 S2. destruct (IH _ F' S2) as (I1 & I2). now rewrite S1, I1, I2. }
      destruct o as [l|l|c l]; cbn [slots refill] in *.
      + now rewrite S.
      + destruct (P _ l true eq_refl) as (-> & ->). reflexivity.
      + destruct (mem c without_repr); [unfold moved; now rewrite M|]. destruct (P _ l false eq_refl) as (-> & ->). reflexivity.
  Qed.
  Lemma known_copy w x : reaches h' w x -> forall v, val_rel m v w -> exists y o vs, reaches h v y /\ nth_error h y = Some o /\ nth_error h' x = Some (refill o vs).
  Proof.
    induction 1 as [a L|a o v x E I R IH]; intros v0 V.
    - destruct v0 as [| | | | | | |b]; cbn in V; try discriminate V. destruct (memo_get m b) as [b'|] eqn:M; [injection V as ->|contradiction].
      destruct (D _ _ M) as ((o' & vs & A & B & F) & _). exists b, o', vs. split; [constructor; apply nth_error_Some; congruence|auto].
    - destruct v0 as [| | | | | | |b]; cbn in V; try discriminate V. destruct (memo_get m b) as [b'|] eqn:M; [injection V as ->|contradiction].
      destruct (D _ _ M) as ((o' & vs & A & B & F) & _). rewrite B in E. injection E as <-. apply slots_refill in I.
      assert (exists u, In u (slots o') /\ val_rel m u v) as (u & Iu & Ru).
      { clear -F I. induction F as [|u y l l' R F IH]; [destruct I|]. destruct I as [<-|I]; [exists u; split; [now left|exact R]|].
        destruct (IH I) as (z & Z1 & Z2). exists z. split; [now right|exact Z2]. }
      destruct (IH u Ru) as (y & o2 & vs2 & R2 & E2 & E3). exists y, o2, vs2. split; [eapply reaches_slot; eauto|auto].
  Qed.
End Copies.

(** ** Two placements of the same objects *)
Lemma hidden_class c : mem c without_repr = true -> exists full, In (c, false, full) classes.
Proof.
  unfold mem, without_repr. cbn [existsb]. rewrite !orb_true_iff, !String.eqb_eq.
  intros [->|[->|[->|E]]]; [..|discriminate]; eexists; cbn; tauto.
Qed.
Lemma some_inv {A} (x y : A) : Some x = Some y -> x = y.
Proof. congruence. Qed.
Section Two.
  Context (a b : loc -> string) (h : heap).
  Lemma join_two {A} (f g : A -> string) (N : A -> Prop) l :
    (forall x, In x l -> forall u w, f x +++ u = g x +++ w -> u = w /\ N x) ->
    forall u w, join (map f l) +++ u = join (map g l) +++ w -> u = w /\ forall x, In x l -> N x.
  Proof.
    induction l as [|x l IH]; intros H u w E; [split; [exact E|intros x []]|]. cbn [map] in E. rewrite !join_cons in E. destruct l as [|y l].
    - destruct (H x (or_introl eq_refl) u w E) as (E1 & E2). split; [exact E1|]. now intros z [<-|[]].
    - cbn [map] in E. rewrite !sapp_assoc in E. apply (H x (or_introl eq_refl)) in E as (E1 & E2). apply (sapp_inv ", ") in E1.
      change (g y :: map g l) with (map g (y :: l)) in E1. change (f y :: map f l) with (map f (y :: l)) in E1.
      apply IH in E1 as (E3 & E4); [|intros z I; apply H; now right]. split; [exact E3|]. intros z [<-|I]; auto.
  Qed.
  Lemma lines_two {A} (k : A -> string) (f g : A -> string) (N : A -> Prop) l :
    (forall x, In x l -> forall u w, f x +++ u = g x +++ w -> u = w /\ N x) ->
    forall u w, lines (map (fun x => (k x, f x)) l) u = lines (map (fun x => (k x, g x)) l) w -> u = w /\ forall x, In x l -> N x.
  Proof.
    induction l as [|x l IH]; intros H u w E; [split; [exact E|intros x []]|]. cbn [map lines] in E. apply line_same in E.
    apply (H x (or_introl eq_refl)) in E as (E1 & E2). apply newline_inv in E1. apply IH in E1 as (E3 & E4); [|intros z I; apply H; now right].
    split; [exact E3|]. intros z [<-|I]; auto.
  Qed.
  Lemma some_map {A B} (f : A -> option B) (d : B) l ts : all_some (map f l) = Some ts ->
    ts = map (fun x => match f x with Some t => t | None => d end) l /\ forall x, In x l -> exists t, f x = Some t.
  Proof.
    intros E. apply all_some_map in E. induction E as [|x t l ts E F (IH1 & IH2)]; [split; [reflexivity|intros x []]|].
    split; [cbn; now rewrite E, <- IH1|]. intros y [<-|I]; eauto.
  Qed.
  Lemma combine_map {A B C} (f : A -> B) (g : A -> C) l : combine (map f l) (map g l) = map (fun x => (f x, g x)) l.
  Proof. induction l; cbn; congruence. Qed.
  Lemma end_code s t u w : SpecShlex.all_chars (fun c => c <> ">"%char) s -> SpecShlex.all_chars (fun c => c <> ">"%char) t ->
    s +++ ">" +++ u = t +++ ">" +++ w -> s = t /\ u = w.
  Proof.
    revert t. induction s as [|c s IH]; intros [|d t] S T E; cbn in *.
    - now injection E.
    - injection E as <- _. now destruct T.
    - injection E as -> _. now destruct S.
    - injection E as <- E. destruct S, T. apply IH in E as (-> & ->); auto.
  Qed.
  Lemma two_places v : grounded h v ->
    (forall l c attrs full, reaches h v l -> nth_error h l = Some (OInst c attrs) -> In (c, false, full) classes ->
       a l <> b l /\ SpecShlex.all_chars (fun c => c <> ">"%char) (a l) /\ SpecShlex.all_chars (fun c => c <> ">"%char) (b l)) ->
    forall n q t t', py_text a n h q v = Some t -> py_text b n h q v = Some t' -> forall x y, t +++ x = t' +++ y -> x = y /\ ~ reaches_hidden h v.
  Proof.
    induction 1 as [v N|l o X G IH]; intros P n q t t' T T' x y E.
    - assert (t = t') as <- by (destruct v; try (destruct n; cbn in *; congruence); exfalso; eapply N; reflexivity).
      apply sapp_inv in E. split; [exact E|]. intros (l & c & at_ & full & R & _). inversion R; subst; eapply N; reflexivity.
    - destruct n as [|n]; [discriminate|]. cbn [py_text] in T, T'. rewrite X in T, T'.
      assert (V : l < length h) by (apply nth_error_Some; congruence).
      assert (IH' : forall v, In v (slots o) -> forall n q t t', py_text a n h q v = Some t -> py_text b n h q v = Some t' ->
        forall x y, t +++ x = t' +++ y -> x = y /\ ~ reaches_hidden h v).
      { intros v I. apply IH; [exact I|]. intros l0 c at_ full R. eapply P. eapply reaches_slot; eauto. }
      assert (NH : (forall c at_, o = OInst c at_ -> forall full, ~ In (c, false, full) classes) -> (forall v, In v (slots o) -> ~ reaches_hidden h v) -> ~ reaches_hidden h (HRef l)).
      { intros A B (l0 & c & at_ & full & R & E0 & I). inversion R as [l1 L1|l1 o1 v1 l2 E1 I1 R1]; subst.
        - rewrite X in E0. injection E0 as ->. eapply A; eauto.
        - rewrite X in E1. injection E1 as <-. apply (B v1 I1). exists l0, c, at_, full. auto. }
      destruct o as [vs|es|c attrs]; cbn [slots] in *.
      + destruct (all_some (map (py_text a n h true) vs)) as [ts|] eqn:S; [|discriminate]. destruct (all_some (map (py_text b n h true) vs)) as [ts'|] eqn:S'; [|discriminate].
        apply some_inv in T as <-. apply some_inv in T' as <-. apply (some_map _ "") in S as (-> & S), S' as (-> & S'). rewrite !sapp_assoc in E. apply (sapp_inv "[") in E.
        apply (join_two _ _ (fun v => ~ reaches_hidden h v)) in E as (E1 & E2).
        * apply (sapp_inv "]") in E1. split; [exact E1|]. apply NH; [discriminate|exact E2].
        * intros v I u w. destruct (S v I) as (t1 & T1), (S' v I) as (t2 & T2). rewrite T1, T2. eapply IH'; eauto.
      + destruct (all_some (map (fun p => py_text a n h true (snd p)) es)) as [ts|] eqn:S; [|discriminate].
        destruct (all_some (map (fun p => py_text b n h true (snd p)) es)) as [ts'|] eqn:S'; [|discriminate].
        apply some_inv in T as <-. apply some_inv in T' as <-. apply (some_map _ "") in S as (-> & S), S' as (-> & S'). rewrite !combine_map, !map_map, !sapp_assoc in E. apply (sapp_inv "{") in E.
        cbn [fst snd] in E. apply (join_two _ _ (fun e => ~ reaches_hidden h (snd e))) in E as (E1 & E2).
        * apply (sapp_inv "}") in E1. split; [exact E1|]. apply NH; [discriminate|]. intros v I. apply in_map_iff in I as (e & <- & I). now apply E2.
        * intros e I u w. destruct (S e I) as (t1 & T1), (S' e I) as (t2 & T2). rewrite T1, T2. rewrite !sapp_assoc. intros Q. do 2 apply sapp_inv in Q.
          eapply IH'; [apply in_map; exact I|exact T1|exact T2|exact Q].
      + destruct (mem c without_repr) eqn:W.
        * exfalso. destruct (hidden_class c W) as (full & C). destruct (P l c attrs full) as (P1 & P2 & P3); [now constructor|exact X|exact C|].
          apply some_inv in T as <-. apply some_inv in T' as <-. rewrite !sapp_assoc in E. do 3 apply sapp_inv in E. apply end_code in E as (E & _); auto.
        * destruct (all_some (map (fun p => py_text a n h false (snd p)) attrs)) as [ts|] eqn:S; [|discriminate].
          destruct (all_some (map (fun p => py_text b n h false (snd p)) attrs)) as [ts'|] eqn:S'; [|discriminate].
          apply some_inv in T as <-. apply some_inv in T' as <-. apply (some_map _ "") in S as (-> & S), S' as (-> & S'). rewrite !combine_map, !object_text in E. unfold heading in E.
          rewrite !sapp_assoc in E. do 3 apply sapp_inv in E.
          match type of E with ?u1 +++ ?l1 = ?u2 +++ ?l2 => assert (E' : l1 = l2) by (replace u2 with u1 in E by (destruct attrs; reflexivity); now apply sapp_inv in E) end.
          clear E. rename E' into E.
          apply (lines_two fst _ _ (fun e => ~ reaches_hidden h (snd e))) in E as (E1 & E2).
          -- split; [exact E1|]. apply NH; [|intros v I; apply in_map_iff in I as (e & <- & I); now apply E2].
             intros c' at_ [= <- <-] full C. apply class_facts in C as (_ & C). rewrite W in C. discriminate.
          -- intros e I u w. destruct (S e I) as (t1 & T1), (S' e I) as (t2 & T2). rewrite T1, T2. eapply IH'; [apply in_map; exact I|exact T1|exact T2].
  Qed.
  Lemma same_places v : grounded h v -> ~ reaches_hidden h v -> forall n q, py_text a n h q v = py_text b n h q v.
  Proof.
    induction 1 as [v N|l o X G IH]; intros R n q.
    - destruct v; try (destruct n; reflexivity). exfalso. eapply N. reflexivity.
    - destruct n as [|n]; [reflexivity|]. cbn [py_text]. rewrite X.
      assert (IH' : forall v, In v (slots o) -> forall n q, py_text a n h q v = py_text b n h q v).
      { intros v I. apply IH; [exact I|]. intros (l0 & c & at_ & full & R0 & E0 & C0). apply R. exists l0, c, at_, full. split; [eapply reaches_slot; eauto|auto]. }
      destruct o as [vs|es|c attrs]; cbn [slots] in *.
      + rewrite (map_ext_in (py_text a n h true) (py_text b n h true) vs); [reflexivity|]. intros x I. now apply IH'.
      + rewrite (map_ext_in (fun p => py_text a n h true (snd p)) (fun p => py_text b n h true (snd p)) es); [reflexivity|]. intros x I. apply IH'. now apply in_map.
      + destruct (mem c without_repr) eqn:W.
        * exfalso. destruct (hidden_class c W) as (full & C). apply R. exists l, c, attrs, full. split; [constructor; apply nth_error_Some; congruence|auto].
        * rewrite (map_ext_in (fun p => py_text a n h false (snd p)) (fun p => py_text b n h false (snd p)) attrs); [reflexivity|]. intros x I. apply IH'. now apply in_map.
  Qed.
End Two.
