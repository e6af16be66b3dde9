(** * Lemmas about the registry *)
Require Import Verif.PyBase Verif.JsonData Verif.Parser Verif.IOInfo Verif.IOGen Verif.ParaTypes Verif.ParaGen Verif.Registry Verif.SpecRegistry.
Require Import Verif.ShippedFacts.
Require Import Lia.

Definition pre (k : kind) : string := match k with InputOutput => IO_PREFIX | Parallelizability => PARA_PREFIX end.
Lemma class_pre k r : class_name k r = pre k +++ r.
Proof. now destruct k. Qed.
Lemma sapp_inj_l a b c : a +++ b = a +++ c -> b = c.
Proof. induction a as [|x a IH]; simpl; [auto|]. intros E. injection E as E. auto. Qed.
Lemma module_pre k r : ANNOTATION_GENERATORS +++ "." +++ pre k +++ r = module_name k r.
Proof. now destruct k. Qed.
Lemma class_inj k r k' r' : class_name k r = class_name k' r' -> k = k' /\ r = r'.
Proof. destruct k, k'; intros E; try discriminate E; apply sapp_inj_l in E; auto. Qed.
Lemma module_inj k r k' r' : module_name k r = module_name k' r' -> k = k' /\ r = r'.
Proof. intros E. apply sapp_inj_l in E. now apply class_inj. Qed.

Lemma name_char_iff a : name_char a = true <-> let n := nat_of_ascii a in
  (65 <= n <= 90 \/ 97 <= n <= 122 \/ 48 <= n <= 57 \/ n = 95)%nat.
Proof.
  unfold name_char. cbv zeta. rewrite !Bool.orb_true_iff, !Bool.andb_true_iff, !Nat.leb_le, Nat.eqb_eq. tauto.
Qed.
Lemma name_chars_iff k r : name_chars (class_name k r) = true <-> plain_name r.
Proof.
  unfold name_chars, plain_name. rewrite class_pre, list_ascii_app, forallb_app, Bool.andb_true_iff.
  replace (forallb name_char (list_ascii_of_string (pre k))) with true by now destruct k.
  rewrite forallb_forall.
  split.
  - intros (_ & H) a I. exact (proj1 (name_char_iff a) (H a I)).
  - intros H. split; [reflexivity|]. intros a I. exact (proj2 (name_char_iff a) (H a I)).
Qed.

(** Names with a prefix that none of a list has *)
Lemma prefix_app a b : String.prefix a (a +++ b) = true.
Proof. induction a as [|x a IH]; simpl; [now destruct b|]. destruct (ascii_dec x x); [auto|congruence]. Qed.
Lemma not_among a b l : forallb (fun n => negb (String.prefix a n)) l = true -> mem (a +++ b) l = false.
Proof.
  intros H. rewrite forallb_forall in H. unfold mem. destruct (existsb _ l) eqn:E; [|reflexivity].
  apply existsb_exists in E as (n & I & E). apply String.eqb_eq in E as <-. apply H in I. rewrite prefix_app in I. discriminate.
Qed.
Lemma not_base k r : mem (pre k +++ r) base_names = false.
Proof. apply not_among. destruct k; vm_compute; reflexivity. Qed.
Lemma not_config k r : mem (pre k +++ r) config_names = false.
Proof. apply not_among. destruct k; vm_compute; reflexivity. Qed.

Section Loop.
  Context {cls : Type}.
  Implicit Types (p : package cls) (g : dict cls).
  Definition ok_pair p (fm : string * string) : Prop :=
    name_chars (snd fm) = true /\ (not_found p (fst fm) \/ exists names c, p (fst fm) = Present names /\ dict_find names (snd fm) = Some c).
  (** What one import defines *)
  Definition class_at p (fm : string * string) : option cls :=
    match p (fst fm) with Present names => dict_find names (snd fm) | _ => None end.
  Lemma loop_ok p pairs : forall g, (exists g', import_loop p pairs g = Imported g') <-> Forall (ok_pair p) pairs.
  Proof.
    induction pairs as [|fm pairs IH]; intros g; simpl.
    - split; [constructor|eauto].
    - rewrite Forall_cons_iff, <- (IH g). unfold exec_import, ok_pair, not_found.
      destruct (name_chars (snd fm)); [|split; [intros (x & E); discriminate|intros ((E & _) & _); discriminate]].
      destruct (p (fst fm)) as [| |e|names] eqn:E.
      + split; [intros H; split; [split; [auto|left; now left]|auto]|tauto].
      + split; [intros H; split; [split; [auto|left; now right]|auto]|tauto].
      + split; [intros (x & H); discriminate|]. intros ((_ & [[H|H]|(n & c & H & _)]) & _); discriminate.
      + destruct (dict_find names (snd fm)) as [c|] eqn:F.
        * rewrite (IH (dict_set g (snd fm) c)), (IH g). split; [|tauto]. intros H. split; [|auto]. split; [auto|]. right. eauto.
        * split; [intros (x & H); discriminate|]. intros ((_ & [[H|H]|(n & c & H & D)]) & _); try discriminate. injection H as <-. congruence.
  Qed.
  Lemma loop_find p pairs x : forall g g', import_loop p pairs g = Imported g' ->
    (forall fm fm', In fm pairs -> In fm' pairs -> snd fm = snd fm' -> fm = fm') ->
    dict_find g' x = match find (fun fm => String.eqb x (snd fm)) pairs with
                     | Some fm => match class_at p fm with Some c => Some c | None => dict_find g x end
                     | None => dict_find g x
                     end.
  Proof.
    induction pairs as [|fm pairs IH]; intros g g' H U; simpl in *; [now injection H as <-|].
    assert (U' : forall a b, In a pairs -> In b pairs -> snd a = snd b -> a = b) by (intros; apply U; auto).
    assert (L : forall h, (forall y, snd fm <> y -> dict_find h y = dict_find g y) -> import_loop p pairs h = Imported g' ->
      (match class_at p fm with Some c => dict_find h (snd fm) = Some c | None => dict_find h (snd fm) = dict_find g (snd fm) end) ->
      dict_find g' x = match (if String.eqb x (snd fm) then Some fm else find (fun fm => String.eqb x (snd fm)) pairs) with
                     | Some fm => match class_at p fm with Some c => Some c | None => dict_find g x end
                     | None => dict_find g x
                     end).
    { intros h O H' C. rewrite (IH _ _ H' U'). destruct (String.eqb x (snd fm)) eqn:E.
      - apply String.eqb_eq in E as ->. destruct (find _ pairs) as [fm'|] eqn:F.
        + apply find_some in F as (I & F). apply String.eqb_eq in F. assert (fm = fm') as <- by (apply U; auto).
          destruct (class_at p fm); auto.
        + destruct (class_at p fm); auto.
      - apply String.eqb_neq in E. rewrite O by congruence. reflexivity. }
    unfold exec_import in H. destruct (name_chars (snd fm)); [|discriminate].
    assert (C : class_at p fm = match p (fst fm) with Present names => dict_find names (snd fm) | _ => None end) by reflexivity.
    destruct (p (fst fm)) as [| |e|names] eqn:E; [| |discriminate|].
    - apply (L g); auto. now rewrite C.
    - apply (L g); auto. now rewrite C.
    - destruct (dict_find names (snd fm)) as [c|] eqn:F; [|discriminate]. apply (L (dict_set g (snd fm) c)); auto; [|rewrite C].
      + intros y N. simpl. destruct (String.eqb y (snd fm)) eqn:Y; [apply String.eqb_eq in Y; congruence|auto].
      + simpl. now rewrite String.eqb_refl.
  Qed.
  Lemma loop_ext p p' pairs : (forall fm, In fm pairs -> p (fst fm) = p' (fst fm) \/ (not_found p (fst fm) /\ not_found p' (fst fm))) ->
    forall g, import_loop p pairs g = import_loop p' pairs g.
  Proof.
    induction pairs as [|fm pairs IH]; intros H g; simpl; [auto|].
    assert (IH' := IH (fun fm I => H fm (or_intror I))). unfold exec_import. destruct (H fm (or_introl eq_refl)) as [E|([E|E] & [F|F])];
      try rewrite E, F; try rewrite <- E; destruct (name_chars (snd fm)); auto.
    destruct (p (fst fm)); auto. destruct (dict_find names (snd fm)); auto.
  Qed.

  Definition pairs_of (table : dict string) : list (string * string) :=
    file_module_names ANNOTATION_GENERATORS IO_PREFIX table ++ file_module_names ANNOTATION_GENERATORS PARA_PREFIX table.
  Lemma in_pairs table fm : In fm (pairs_of table) <-> exists k r, registered table r /\ fm = (module_name k r, class_name k r).
  Proof.
    unfold pairs_of, file_module_names. rewrite in_app_iff, !in_map_iff. split.
    - intros [((c & r) & <- & I)|((c & r) & <- & I)].
      + exists InputOutput, r. split; [now exists c|reflexivity].
      + exists Parallelizability, r. split; [now exists c|reflexivity].
    - intros ([] & r & (c & I) & ->); [left|right]; exists (c, r); auto.
  Qed.
  Lemma registered_iff table r : registered table r <-> In r (map snd table).
  Proof.
    unfold registered. rewrite in_map_iff. split.
    - intros (c & I). now exists (c, r).
    - intros ((c & x) & <- & I). now exists c.
  Qed.
  Lemma import_ok p table : (exists g, import_generators p table = Imported g) <->
    forall r, registered table r -> plain_name r /\ forall k, tolerated p k r.
  Proof.
    unfold import_generators. rewrite loop_ok, Forall_forall. fold (pairs_of table). split.
    - intros H r R. split.
      + destruct (H (module_name InputOutput r, class_name InputOutput r)) as (N & _); [apply in_pairs; eauto|]. exact (proj1 (name_chars_iff InputOutput r) N).
      + intros k. destruct (H (module_name k r, class_name k r)) as (_ & T); [apply in_pairs; eauto|].
        destruct T as [T|(n & c & A & B)]; [now left|]. right. exists c. now exists n.
    - intros H fm I. apply in_pairs in I as (k & r & R & ->). destruct (H r R) as (N & T). split; [exact (proj2 (name_chars_iff k r) N)|]. unfold fst, snd.
      destruct (T k) as [Q|(c & n & Q)]; [now left|]. right. exists n, c. exact Q.
  Qed.
  Lemma import_find p table g k r : import_generators p table = Imported g ->
    forall c, dict_find g (class_name k r) = Some c <-> registered table r /\ class_in p k r c.
  Proof.
    intros H c. unfold import_generators in H. rewrite (loop_find _ _ (class_name k r) _ _ H).
    - fold (pairs_of table). destruct (find _ (pairs_of table)) as [fm|] eqn:F.
      + apply find_some in F as (I & E). apply String.eqb_eq in E. apply in_pairs in I as (k' & r' & R & ->). simpl in E.
        apply class_inj in E as (<- & <-). unfold class_at. simpl. unfold class_in. destruct (p (module_name k r)) as [| |e|names].
        1-3: split; [discriminate|intros (_ & n & Q & _); discriminate].
        destruct (dict_find names (class_name k r)) eqn:D.
        * split; [intros Q; injection Q as <-; eauto|]. intros (_ & n & Q & D'). injection Q as <-. congruence.
        * split; [discriminate|]. intros (_ & n & Q & D'). injection Q as <-. congruence.
      + split; [discriminate|]. intros (R & _). eapply find_none with (x := (module_name k r, class_name k r)) in F; [|apply in_pairs; eauto].
        simpl in F. rewrite String.eqb_refl in F. discriminate.
    - fold (pairs_of table). intros fm fm' I I' E. apply in_pairs in I as (k1 & r1 & _ & ->). apply in_pairs in I' as (k2 & r2 & _ & ->).
      simpl in E. apply class_inj in E as (-> & ->). reflexivity.
  Qed.
  Lemma repr_used table cmd r : used_for table cmd r <-> repr_in table cmd = r.
  Proof.
    unfold used_for, repr_in, dict_get_default. destruct (dict_find table cmd) as [x|].
    - split; [intros [E|(E & _)]; [now injection E|discriminate]|intros ->; now left].
    - split; [intros [E|(_ & ->)]; [discriminate|auto]|intros <-; auto].
  Qed.
  Lemma answer_iff {info} (run : cls -> invocation -> result info) k p table inv i :
    answer run k p table inv = Some i <->
    (exists g, import_generators p table = Imported g) /\
    exists r c, used_for table (cmd_name inv) r /\ registered table r /\ class_in p k r c /\ run c inv = Ok i.
  Proof.
    unfold answer. destruct (import_generators p table) as [g|e] eqn:E; [|split; [discriminate|intros ((g & Q) & _); discriminate]].
    fold (pre k). unfold info_from, str_to_class. rewrite not_base, <- class_pre. assert (F := import_find p table g k (repr_in table (cmd_name inv)) E).
    split.
    - destruct (dict_find g _) as [c|] eqn:D; [|discriminate]. intros R. split; [eauto|]. destruct (proj1 (F c) eq_refl) as (A & B).
      exists (repr_in table (cmd_name inv)), c. split; [now apply repr_used|]. split; [auto|]. split; [auto|].
      destruct (run c inv); [now injection R as ->|discriminate].
    - intros (_ & r & c & U & R & C & Q). apply repr_used in U as <-. rewrite (proj2 (F c) (conj R C)), Q. reflexivity.
  Qed.
  Lemma import_ext p p' table : (forall k r, registered table r -> p (module_name k r) = p' (module_name k r) \/
      (not_found p (module_name k r) /\ not_found p' (module_name k r))) -> import_generators p table = import_generators p' table.
  Proof.
    intros H. apply loop_ext. fold (pairs_of table). intros fm I. apply in_pairs in I as (k & r & R & ->). now apply H.
  Qed.
End Loop.

Lemma option_ext {A} (a b : option A) : (forall x, a = Some x <-> b = Some x) -> a = b.
Proof. intros H. destruct a as [x|]; [symmetry; now apply H|]. destruct b as [y|]; [now apply H|reflexivity]. Qed.
Lemma find_insert {V} (l1 l2 : dict V) c v n : n <> c -> dict_find (l1 ++ (c, v) :: l2) n = dict_find (l1 ++ l2) n.
Proof.
  intros N. induction l1 as [|(x & w) l1 IH]; simpl.
  - destruct (String.eqb n c) eqn:E; [apply String.eqb_eq in E; contradiction|reflexivity].
  - now rewrite IH.
Qed.
Lemma find_here {V} (l1 l2 : dict V) c v : ~ In c (map fst l1) -> dict_find (l1 ++ (c, v) :: l2) c = Some v.
Proof.
  induction l1 as [|(x & w) l1 IH]; simpl; intros N; [now rewrite String.eqb_refl|].
  destruct (String.eqb c x) eqn:E; [apply String.eqb_eq in E; subst; tauto|tauto].
Qed.
