(** * Facts about [==] *)
From Coq Require Import Lia ZArith.
Require Import Verif.PyBase Verif.Heap Verif.HeapEq Verif.SpecHeap Verif.SpecHeapEq.

Lemma is_same_spec v w : reflect (v = w) (is_same v w).
Proof. unfold is_same. destruct (hval_eq_dec v w); now constructor. Qed.
Lemma is_same_refl v : is_same v v = true.
Proof. now destruct (is_same_spec v v). Qed.

(** ** Comparing lists *)
Definition item (f : hval -> hval -> option bool) (v w : hval) : option bool := if is_same v w then Some true else f v w.
Lemma item_true f v w : item f v w = Some true <-> v = w \/ f v w = Some true.
Proof. unfold item. destruct (is_same_spec v w) as [E|E]; intuition. Qed.
Lemma item_false f v w : item f v w = Some false <-> v <> w /\ f v w = Some false.
Proof. unfold item. destruct (is_same_spec v w) as [E|E]; intuition discriminate. Qed.
Lemma eq_items_true f : forall l l', length l = length l' ->
  (eq_items f l l' = Some true <-> forall i v w, nth_error l i = Some v -> nth_error l' i = Some w -> item f v w = Some true).
Proof.
  induction l as [|v l IH]; intros [|w l'] L; try discriminate; cbn [eq_items].
  - split; [|reflexivity]. intros _ [|i] v w; discriminate.
  - fold (item f v w). injection L as L. split.
    + intros E. destruct (item f v w) as [[]|] eqn:I; try discriminate. cbn in E. intros [|i] x y; cbn.
      * intros [= <-] [= <-]. exact I.
      * apply (proj1 (IH l' L) E).
    + intros H. rewrite (H 0 v w eq_refl eq_refl). cbn. apply (IH l' L). intros i. exact (H (S i)).
Qed.
Lemma eq_items_false f : forall l l', eq_items f l l' = Some false ->
  exists i v w, nth_error l i = Some v /\ nth_error l' i = Some w /\ item f v w = Some false.
Proof.
  induction l as [|v l IH]; intros [|w l']; try discriminate. cbn [eq_items]. fold (item f v w).
  destruct (item f v w) as [[]|] eqn:I; cbn; intros E; try discriminate.
  - destruct (IH _ E) as (i & x & y & A & B & C). now exists (S i), x, y.
  - now exists 0, v, w.
Qed.
Lemma eq_items_total f : forall l l', (forall v w, In v l -> exists b, f v w = Some b) -> exists b, eq_items f l l' = Some b.
Proof.
  induction l as [|v l IH]; intros [|w l'] T; cbn; eauto. fold (item f v w).
  assert (E : exists b, item f v w = Some b) by (unfold item; destruct (is_same v w); [eauto|apply T; now left]).
  destruct E as ([] & ->); cbn; eauto. apply IH. intros x y I. apply T. now right.
Qed.
Lemma eq_items_mono f g : (forall v w b, f v w = Some b -> g v w = Some b) -> forall l l' b, eq_items f l l' = Some b -> eq_items g l l' = Some b.
Proof.
  intros M. induction l as [|v l IH]; intros [|w l'] b; cbn; auto. fold (item f v w) (item g v w).
  assert (I : forall b, item f v w = Some b -> item g v w = Some b) by (intros c; unfold item; destruct (is_same v w); auto).
  destruct (item f v w) as [[]|]; try discriminate; rewrite (I _ eq_refl); cbn; auto.
Qed.

(** ** Comparing dicts *)
Section Dict.
  Context {K : Type} (find : list (K * hval) -> K -> option hval)
    (find_in : forall l k v, NoDup (map fst l) -> (find l k = Some v <-> In (k, v) l)).
  Lemma find_none l k : NoDup (map fst l) -> (find l k = None <-> ~ In k (map fst l)).
  Proof.
    intros N. split.
    - intros E I. apply in_map_iff in I as ((k' & v) & <- & I). apply (find_in l k' v N) in I. cbn in E. congruence.
    - intros I. destruct (find l k) as [v|] eqn:E; [|reflexivity]. apply (find_in l k v N) in E. exfalso. apply I. apply (in_map fst) in E. exact E.
  Qed.
  Lemma eq_entries_true f l' : forall l, eq_entries f (find l') l = Some true <->
    forall k v, In (k, v) l -> exists w, find l' k = Some w /\ item f v w = Some true.
  Proof.
    induction l as [|(k, v) l IH]; cbn [eq_entries].
    - split; [intros _ k v []|reflexivity].
    - destruct (find l' k) as [w|] eqn:F.
      + fold (item f v w). split.
        * intros E. destruct (item f v w) as [[]|] eqn:I; try discriminate. cbn in E. intros k' v' [[= <- <-]|J]; [eauto|].
          now apply (proj1 IH).
        * intros H. destruct (H k v (or_introl eq_refl)) as (w' & F' & I). rewrite F in F'. injection F' as <-. rewrite I. cbn.
          apply IH. intros k' v' J. apply H. now right.
      + split; [discriminate|]. intros H. destruct (H k v (or_introl eq_refl)) as (w' & F' & I). congruence.
  Qed.
  Lemma eq_entries_false f l' : forall l, eq_entries f (find l') l = Some false ->
    exists k v, In (k, v) l /\ (find l' k = None \/ exists w, find l' k = Some w /\ item f v w = Some false).
  Proof.
    induction l as [|(k, v) l IH]; cbn [eq_entries]; [discriminate|]. destruct (find l' k) as [w|] eqn:F.
    - fold (item f v w). destruct (item f v w) as [[]|] eqn:I; cbn; intros E; try discriminate.
      + destruct (IH E) as (k' & v' & J & X). exists k', v'. split; [now right|exact X].
      + exists k, v. split; [now left|]. right. eauto.
    - intros _. exists k, v. split; [now left|]. now left.
  Qed.
  Lemma eq_entries_total f l' : forall l, (forall k v w, In (k, v) l -> exists b, f v w = Some b) -> exists b, eq_entries f (find l') l = Some b.
  Proof.
    induction l as [|(k, v) l IH]; intros T; cbn [eq_entries]; [eauto|]. destruct (find l' k) as [w|]; [|eauto]. fold (item f v w).
    assert (E : exists b, item f v w = Some b) by (unfold item; destruct (is_same v w); [eauto|eapply T; now left]).
    destruct E as ([] & ->); cbn; eauto. apply IH. intros k' x y I. eapply T. right. exact I.
  Qed.
  Lemma eq_entries_mono f g (M : forall v w b, f v w = Some b -> g v w = Some b) l' :
    forall l b, eq_entries f (find l') l = Some b -> eq_entries g (find l') l = Some b.
  Proof.
    induction l as [|(k, v) l IH]; intros b; cbn [eq_entries]; auto. destruct (find l' k) as [w|]; [|auto]. fold (item f v w) (item g v w).
    assert (I : forall b, item f v w = Some b -> item g v w = Some b) by (intros c; unfold item; destruct (is_same v w); auto).
    destruct (item f v w) as [[]|]; try discriminate; rewrite (I _ eq_refl); cbn; auto.
  Qed.
  (** The comparison says whether the keys agree and the values are equal. *)
  Lemma eq_dict_true f l l' : NoDup (map fst l) -> NoDup (map fst l') ->
    (eq_dict f find l l' = Some true <->
     (forall k, find l k = None <-> find l' k = None) /\
     (forall k v w, find l k = Some v -> find l' k = Some w -> item f v w = Some true)).
  Proof.
    intros N N'. unfold eq_dict. destruct (Nat.eqb_spec (length l) (length l')) as [L|L].
    - rewrite eq_entries_true. split.
      + intros H. assert (KI : incl (map fst l) (map fst l')).
        { intros k I. apply in_map_iff in I as ((k' & v) & <- & I). destruct (H k' v I) as (w & F & _). apply find_in in F; [|exact N'].
          apply (in_map fst) in F. exact F. }
        assert (KI' : incl (map fst l') (map fst l)).
        { apply NoDup_length_incl; [exact N|rewrite !map_length; lia|exact KI]. }
        split.
        * intros k. rewrite !find_none by assumption. split; intros X Y; apply X; auto.
        * intros k v w F F'. apply find_in in F; [|exact N]. destruct (H k v F) as (w' & F'' & I). rewrite F' in F''. now injection F'' as <-.
      + intros (HN & HV) k v I. apply find_in in I; [|exact N]. destruct (find l' k) as [w|] eqn:F.
        * exists w. split; [reflexivity|]. eapply HV; eassumption.
        * apply HN in F. congruence.
    - split; [discriminate|]. intros (HN & _). exfalso. apply L. rewrite <- (map_length fst l), <- (map_length fst l').
      assert (KI : forall k, In k (map fst l) <-> In k (map fst l')).
      { intros k. specialize (HN k). rewrite !find_none in HN by assumption. split; intros I.
        - destruct (find l' k) as [w|] eqn:F; [apply find_in in F; [apply (in_map fst) in F; exact F|exact N']|].
          apply find_none in F; [|exact N']. apply HN in F. contradiction.
        - destruct (find l k) as [w|] eqn:F; [apply find_in in F; [apply (in_map fst) in F; exact F|exact N]|].
          apply find_none in F; [|exact N]. apply HN in F. contradiction. }
      apply Nat.le_antisymm; apply NoDup_incl_length; try assumption; intros k; apply KI.
  Qed.
  Lemma eq_dict_false f l l' : NoDup (map fst l) -> NoDup (map fst l') -> eq_dict f find l l' = Some false ->
    (forall k, find l k = None <-> find l' k = None) -> exists k v w, find l k = Some v /\ find l' k = Some w /\ item f v w = Some false.
  Proof.
    intros N N' E HN. unfold eq_dict in E. destruct (Nat.eqb_spec (length l) (length l')) as [L|L].
    - apply eq_entries_false in E as (k & v & I & [F|(w & F & X)]).
      + apply HN in F. apply find_in in I; [|exact N]. congruence.
      + exists k, v, w. split; [now apply find_in|auto].
    - exfalso. assert (T : eq_dict (fun _ _ => Some true) find l l' = Some true).
      { apply eq_dict_true; auto. split; [exact HN|]. intros. unfold item. now destruct (is_same v w). }
      unfold eq_dict in T. destruct (Nat.eqb_spec (length l) (length l')); [contradiction|discriminate].
  Qed.
  Lemma eq_dict_total f l l' : (forall v w, In v (map snd l) -> exists b, f v w = Some b) -> exists b, eq_dict f find l l' = Some b.
  Proof.
    intros T. unfold eq_dict. destruct (Nat.eqb _ _); [|eauto]. apply eq_entries_total. intros k v w I. apply T.
    apply (in_map snd) in I. exact I.
  Qed.
  Lemma eq_dict_mono f g (M : forall v w b, f v w = Some b -> g v w = Some b) l l' b : eq_dict f find l l' = Some b -> eq_dict g find l l' = Some b.
  Proof. unfold eq_dict. destruct (Nat.eqb _ _); [|auto]. now apply eq_entries_mono. Qed.
End Dict.
Lemma assoc_s_in l k v : NoDup (map fst l) -> (assoc_s l k = Some v <-> In (k, v) l).
Proof.
  induction l as [|(k', v') l IH]; cbn; [split; [discriminate|tauto]|]. intros N. inversion N as [|? ? X N']; subst.
  destruct (String.eqb_spec k' k) as [->|E].
  - split; [intros [= ->]; now left|]. intros [[= ->]|I]; [reflexivity|]. apply (in_map fst) in I. contradiction.
  - rewrite (IH N'). split; [auto|]. intros [[= -> ->]|I]; [contradiction|exact I].
Qed.
Lemma assoc_z_in l k v : NoDup (map fst l) -> (assoc_z l k = Some v <-> In (k, v) l).
Proof.
  induction l as [|(k', v') l IH]; cbn; [split; [discriminate|tauto]|]. intros N. inversion N as [|? ? X N']; subst.
  destruct (Z.eqb_spec k' k) as [->|E].
  - split; [intros [= ->]; now left|]. intros [[= ->]|I]; [reflexivity|]. apply (in_map fst) in I. contradiction.
  - rewrite (IH N'). split; [auto|]. intros [[= -> ->]|I]; [contradiction|exact I].
Qed.

(** ** [==] *)
Lemma mem_In c l : mem c l = true <-> In c l.
Proof.
  induction l as [|x l IH]; cbn; [split; [discriminate|tauto]|]. rewrite Bool.orb_true_iff, IH. destruct (String.eqb_spec c x); intuition.
  all: try (right; congruence). all: subst; intuition.
Qed.
Lemma py_eq_mono h : forall n v w b, py_eq n h v w = Some b -> py_eq (S n) h v w = Some b.
Proof.
  induction n as [|n IH]; intros v w b.
  - destruct v, w; cbn; auto. discriminate.
  - destruct v as [| | | | | | |a], w as [| | | | | | |a']; auto. intros E. change (py_eq (S (S n)) h (HRef a) (HRef a')) with
      (match nth_error h a, nth_error h a' with
          | Some (OList l), Some (OList l') => eq_list (py_eq (S n) h) l l'
          | Some (ODict l), Some (ODict l') => eq_dict (py_eq (S n) h) assoc_z l l'
          | Some (OInst c l), Some (OInst c' l') =>
              if mem c without_eq then Some (is_same (HRef a) (HRef a'))
              else if String.eqb c c' then eq_dict (py_eq (S n) h) assoc_s l l'
              else Some false
          | _, _ => Some (is_same (HRef a) (HRef a'))
          end).
    cbn [py_eq] in E. destruct (nth_error h a) as [[]|], (nth_error h a') as [[]|]; auto.
    + unfold eq_list in *. destruct (Nat.eqb _ _); [|auto]. eapply eq_items_mono; eauto.
    + eapply eq_dict_mono; eauto.
    + destruct (mem cls without_eq); [auto|]. destruct (String.eqb cls cls0); [|auto]. eapply eq_dict_mono; eauto.
Qed.
Lemma py_eq_more h v w b n m : n <= m -> py_eq n h v w = Some b -> py_eq m h v w = Some b.
Proof. induction 1; auto. intros E. apply py_eq_mono; auto. Qed.

Section Proper.
  Context (h : heap) (P : proper h).
  Lemma proper_at a o : nth_error h a = Some o -> match o with OList _ => True | ODict l => NoDup (map fst l) | OInst _ l => NoDup (map fst l) end.
  Proof. intros E. apply nth_error_In in E. now apply P. Qed.
  Lemma is_same_same v w : Some (is_same v w) = Some true -> same h v w.
  Proof. destruct (is_same_spec v w) as [->|]; [constructor|discriminate]. Qed.
  Lemma py_eq_true : forall n v w, py_eq n h v w = Some true -> same h v w.
  Proof.
    induction n as [|n IH]; intros v w.
    - destruct v as [| | | | | | |a], w as [| | | | | | |a']; cbn [py_eq]; intros E; try discriminate;
        (now apply is_same_same).
    - destruct v as [| | | | | | |a], w as [| | | | | | |a']; cbn [py_eq]; intros E;
        try (now apply is_same_same).
      assert (IT : forall v w, item (py_eq n h) v w = Some true -> same h v w).
      { intros v w X. apply item_true in X as [->|X]; [constructor|auto]. }
      destruct (nth_error h a) as [o|] eqn:A.
      2:{ now apply is_same_same. }
      destruct (nth_error h a') as [o'|] eqn:A'.
      2:{ destruct o; now apply is_same_same. }
      pose proof (proper_at a _ A) as PA. pose proof (proper_at a' _ A') as PA'.
      destruct o as [l|l|c l], o' as [l'|l'|c' l'];
        try (now apply is_same_same).
      + unfold eq_list in E. destruct (Nat.eqb_spec (length l) (length l')) as [L|L]; [|discriminate].
        eapply same_list; eauto. intros i v w I J. apply IT. eapply (proj1 (eq_items_true _ l l' L) E); eauto.
      + apply (eq_dict_true assoc_z assoc_z_in) in E as (E1 & E2); [|assumption..]. eapply same_dict; eauto.
      + destruct (mem c without_eq) eqn:M.
        { now apply is_same_same. }
        destruct (String.eqb_spec c c') as [<-|]; [|discriminate].
        apply (eq_dict_true assoc_s assoc_s_in) in E as (E1 & E2); [|assumption..]. eapply same_instance; eauto.
        intros I. apply mem_In in I. change by_identity with without_eq in I. congruence.
  Qed.
  Lemma item_refl f v : item f v v = Some true.
  Proof. unfold item. now rewrite is_same_refl. Qed.
  Lemma py_eq_refl n v : py_eq n h v v <> Some false.
  Proof.
    destruct v as [| | | | | | |a]; try (destruct n; cbn [py_eq]; rewrite ?is_same_refl; discriminate).
    destruct n as [|n]; [discriminate|]. cbn [py_eq]. destruct (nth_error h a) as [[l|l|c l]|] eqn:A; pose proof (fun o E => proper_at a o E) as PA;
      try (rewrite is_same_refl; discriminate).
    - assert (E : eq_list (py_eq n h) l l = Some true); [|congruence]. unfold eq_list. rewrite Nat.eqb_refl. apply eq_items_true; [reflexivity|].
      intros i v w E E'. rewrite E in E'. injection E' as <-. apply item_refl.
    - assert (E : eq_dict (py_eq n h) assoc_z l l = Some true); [|congruence]. apply (eq_dict_true assoc_z assoc_z_in); try exact (PA _ A).
      split; [tauto|]. intros k v w E E'. rewrite E in E'. injection E' as <-. apply item_refl.
    - rewrite is_same_refl, String.eqb_refl. destruct (mem c without_eq); [discriminate|].
      assert (E : eq_dict (py_eq n h) assoc_s l l = Some true); [|congruence]. apply (eq_dict_true assoc_s assoc_s_in); try exact (PA _ A).
      split; [tauto|]. intros k v w E E'. rewrite E in E'. injection E' as <-. apply item_refl.
  Qed.
  Lemma py_eq_false : forall n v w, py_eq n h v w = Some false -> ~ same h v w.
  Proof.
    induction n as [|n IH]; intros v w E S.
    - destruct S; [now apply py_eq_refl in E|discriminate..].
    - destruct S as [v|a b l l' A B L S|a b l l' A B K S|a b c l l' A B N K S]; [now apply py_eq_refl in E|..]; cbn [py_eq] in E; rewrite A, B in E.
      + unfold eq_list in E. rewrite L, Nat.eqb_refl in E. apply eq_items_false in E as (i & v & w & I & J & X).
        apply item_false in X as (_ & X). eapply IH; [exact X|]. eapply S; eauto.
      + apply (eq_dict_false assoc_z assoc_z_in) in E as (k & v & w & I & J & X); try assumption; [|exact (proper_at _ _ A)|exact (proper_at _ _ B)].
        apply item_false in X as (_ & X). eapply IH; [exact X|]. eapply S; eauto.
      + destruct (mem c without_eq) eqn:M; [apply mem_In in M; contradiction|]. rewrite String.eqb_refl in E.
        apply (eq_dict_false assoc_s assoc_s_in) in E as (k & v & w & I & J & X); try assumption; [|exact (proper_at _ _ A)|exact (proper_at _ _ B)].
        apply item_false in X as (_ & X). eapply IH; [exact X|]. eapply S; eauto.
  Qed.
End Proper.

(** It ends if no object is reached from itself. *)
Lemma finite_bound {A} (Q : nat -> A -> Prop) (M : forall n m x, n <= m -> Q n x -> Q m x) (l : list A) :
  (forall x, In x l -> exists n, Q n x) -> exists n, forall x, In x l -> Q n x.
Proof.
  induction l as [|x l IH]; intros H; [exists 0; intros x []|]. destruct (H x (or_introl eq_refl)) as (n & X).
  destruct IH as (m & Y); [intros y I; apply H; now right|]. exists (n + m). intros y [<-|I]; [apply (M n); [lia|auto]|apply (M m); [lia|auto]].
Qed.
Lemma py_eq_ends h v : grounded h v -> exists n, forall w, exists b, py_eq n h v w = Some b.
Proof.
  induction 1 as [v N|a o A G IH].
  - exists 0. intros w. destruct v; try (now (exfalso; eapply N)); destruct w; cbn; eauto.
  - destruct (finite_bound (fun n v => forall w, exists b, py_eq n h v w = Some b)) with (l := slots o) as (n & H).
    + intros n m x L X w. destruct (X w) as (b & E). exists b. eapply py_eq_more; eauto.
    + exact IH.
    + exists (S n). intros w. destruct w as [| | | | | | |b]; cbn [py_eq]; eauto. rewrite A.
      destruct o as [l|l|c l], (nth_error h b) as [[l'|l'|c' l']|]; eauto; cbn [slots] in H.
      * unfold eq_list. destruct (Nat.eqb _ _); [|eauto]. apply eq_items_total. auto.
      * apply (eq_dict_total assoc_z). auto.
      * destruct (mem c without_eq); [eauto|]. destruct (String.eqb c c'); [|eauto]. apply (eq_dict_total assoc_s). auto.
Qed.

(** ** Equal values *)
Lemma same_sym h v w : same h v w -> same h w v.
Proof.
  induction 1 as [v|a b l l' A B L S IH|a b l l' A B K S IH|a b c l l' A B N K S IH]; [constructor|..].
  - eapply same_list; eauto.
  - eapply same_dict; eauto. intros k. symmetry. apply K.
  - eapply same_instance; eauto. intros k. symmetry. apply K.
Qed.
Lemma same_trans h v w : same h v w -> forall u, same h w u -> same h v u.
Proof.
  induction 1 as [v|a b l l' A B L S IH|a b l l' A B K S IH|a b c l l' A B N K S IH]; intros u U; [exact U|..].
  - inversion U as [|? d m m' C D L' S'|? d m m' C D K' S'|? d e m m' C D N' K' S']; subst; [eapply same_list; eauto|..];
      rewrite B in C; try discriminate; injection C as <-.
    eapply same_list; [exact A|exact D|congruence|]. intros i v w I J.
    destruct (nth_error l' i) as [x|] eqn:X; [eauto|]. exfalso. apply nth_error_None in X. assert (nth_error l i <> None) as Y by congruence.
    apply nth_error_Some in Y. lia.
  - inversion U as [|? d m m' C D L' S'|? d m m' C D K' S'|? d e m m' C D N' K' S']; subst; [eapply same_dict; eauto|..];
      rewrite B in C; try discriminate; injection C as <-.
    eapply same_dict; [exact A|exact D| |].
    + intros k. rewrite K. apply K'.
    + intros k v w I J. destruct (assoc_z l' k) as [x|] eqn:X; [eauto|]. apply K in X. congruence.
  - inversion U as [|? d m m' C D L' S'|? d m m' C D K' S'|? d e m m' C D N' K' S']; subst; [eapply same_instance; eauto|..];
      rewrite B in C; try discriminate; injection C as <- <-.
    eapply same_instance; [exact A|exact D|exact N| |].
    + intros k. rewrite K. apply K'.
    + intros k v w I J. destruct (assoc_s l' k) as [x|] eqn:X; [eauto|]. apply K in X. congruence.
Qed.
