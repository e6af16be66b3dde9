(** * Lemmas about applying input-output information to objects *)
From Coq Require Import Lia.
Require Import Verif.PyBase Verif.Parser Verif.Access Verif.IOInfo Verif.IOVars Verif.Heap Verif.HeapApply Verif.SpecHeap Verif.SpecApply
  Verif.HeapFacts Verif.HeapSep Verif.HeapCopy Verif.P_Heap.

Lemma closed_snoc h o : closed h -> Forall (valid h) (slots o) -> closed (h ++ [o]).
Proof.
  intros C V o' I. apply in_app_or in I as [I|[<-|[]]]; (eapply Forall_impl; [|eauto]);
    intros v X; (eapply valid_mono; [|exact X]); rewrite app_length; lia.
Qed.
Lemma reaches_later h h' v l : unchanged h h' -> reaches h v l -> reaches h' v l.
Proof.
  intros U. induction 1 as [l L|l o v l' E I R IH].
  - constructor. pose proof (unchanged_length _ _ U). lia.
  - eapply reaches_slot; [|exact I|exact IH]. rewrite U; [exact E|]. apply nth_error_Some. congruence.
Qed.
Lemma reaches_same h h' v l : closed h -> unchanged h h' -> valid h v -> (reaches h' v l <-> reaches h v l).
Proof. intros C U V. split; [intros R; now apply (reaches_unchanged h h')|now apply reaches_later]. Qed.
Lemma nth_later h h' l o : unchanged h h' -> nth_error h l = Some o -> nth_error h' l = Some o.
Proof. intros U E. rewrite U; [exact E|]. apply nth_error_Some. congruence. Qed.
Lemma nth_bound (h : heap) l o : nth_error h l = Some o -> l < length h.
Proof. intros E. apply nth_error_Some. congruence. Qed.
Lemma nth_last (h : heap) o : nth_error (h ++ [o]) (length h) = Some o.
Proof. now rewrite nth_error_snoc, Nat.eqb_refl. Qed.
Lemma slot_valid h l o v : closed h -> nth_error h l = Some o -> In v (slots o) -> valid h v.
Proof. intros C E I. specialize (C o (nth_error_In _ _ E)). rewrite Forall_forall in C. auto. Qed.
(** An object added to the heap reaches of the older ones what its values reach. *)
Lemma reaches_last h o l : closed h -> Forall (valid h) (slots o) -> l < length h ->
  (reaches (h ++ [o]) (HRef (length h)) l <-> exists v, In v (slots o) /\ reaches h v l).
Proof.
  intros C V L. split.
  - intros R. inversion R as [l0 L0|l0 o0 v l' E I R']; subst; [lia|]. rewrite nth_last in E. injection E as <-.
    exists v. split; [exact I|]. rewrite Forall_forall in V. apply (reaches_same h (h ++ [o])); auto. apply unchanged_snoc.
  - intros (v & I & R). eapply reaches_slot; [apply nth_last|exact I|]. eapply reaches_later; [apply unchanged_snoc|exact R].
Qed.
Lemma no_reach h v l : (forall k, v <> HRef k) -> ~ reaches h v l.
Proof. intros N R. inversion R; subst; eapply N; eauto. Qed.
Lemma view_later h h' v p : unchanged h h' -> view_val h v = Some p -> view_val h' v = Some p.
Proof. intros U. apply view_val_stable, unchanged_stable, U. Qed.

(** What is known when a value [v] has been made in the heap [h1], which gave [h2]: it stands for
    [x] and the objects of [h0] that are part of it are those of [P]. *)
Definition made {A} (is : heap -> hval -> A -> Prop) (h0 h1 h2 : heap) (v : hval) (x : A) (P : loc -> Prop) : Prop :=
  unchanged h1 h2 /\ closed h2 /\ valid h2 v /\ is h2 v x /\ forall l, l < length h0 -> (reaches h2 v l <-> P l).
Definition outcome {A} (is : heap -> hval -> A -> Prop) (h0 h1 : heap) (got : heap * result hval) (want : result A) (P : loc -> Prop) : Prop :=
  match got, want with
  | (h2, Ok v), Ok x => made is h0 h1 h2 v x P
  | (h2, Raise e), Raise e' => e = e' /\ unchanged h1 h2
  | _, _ => False
  end.
Definition arg_is (h : heap) (v : hval) (a : io_arg) : Prop := view_val h v = Some (arg_value a).
Definition arg_kept (h0 : heap) (t : hval) (h : heap) (v : hval) (a : io_arg) : Prop := arg_is h v a /\ keeps_access h0 t h v.
Definition flag_is (h : heap) (v : hval) (f : flag_option_io) : Prop := view_flag h v = Some (flag_value f).

Definition flag_kept (h0 : heap) (fo t : hval) (h : heap) (v : hval) (f : flag_option_io) : Prop := flag_is h v f /\ keeps_flagoption h0 fo t h v.

Lemma get_attr_ok h l c attrs n v : nth_error h l = Some (OInst c attrs) -> assoc_s attrs n = Some v -> get_attr (HRef l) n h = (h, Ok v).
Proof. intros E F. unfold get_attr, hbind, get_obj. now rewrite E, F. Qed.
Lemma items_ok h l vs : nth_error h l = Some (OList vs) -> items (HRef l) h = (h, Ok vs).
Proof. intros E. unfold items, hbind, get_obj. now rewrite E. Qed.
Lemma class_ok h l c attrs : nth_error h l = Some (OInst c attrs) -> class_of (HRef l) h = (h, Ok (Some c)).
Proof. intros E. unfold class_of. now rewrite E. Qed.
Lemma bind_ok {A B} (m : hm A) (f : A -> hm B) h h' a : m h = (h', Ok a) -> hbind m f h = f a h'.
Proof. intros E. unfold hbind. now rewrite E. Qed.
Lemma bind_raise {A B} (m : hm A) (f : A -> hm B) h h' e : m h = (h', Raise e) -> hbind m f h = (h', Raise e).
Proof. intros E. unfold hbind. now rewrite E. Qed.

Lemma access_later h0 t h h' v : unchanged h h' -> keeps_access h0 t h v -> keeps_access h0 t h' v.
Proof.
  intros U K k r E F. destruct (K k r E F) as (l & c & n & -> & B & I & G). exists l, c, n. split; [reflexivity|]. split; [exact B|]. split; [exact I|]. eapply nth_later; eauto.
Qed.
Lemma flagoption_later h0 fo t h h' v : unchanged h h' -> keeps_flagoption h0 fo t h v -> keeps_flagoption h0 fo t h' v.
Proof.
  intros U (K & L). split; [exact K|]. intros X. destruct (L X) as (l & n & a & -> & B & E & A). exists l, n, a.
  split; [reflexivity|]. split; [exact B|]. split; [eapply nth_later; eauto|eapply access_later; eauto].
Qed.

Section Apply.
Variable h0 : heap.
Hypothesis C0 : closed h0.

(** The resource made for an argument *)
Lemma resource_made h1 s d k r a : closed h1 -> unchanged h0 h1 -> nth_error h0 k = Some (typer_obj "filestd" r) -> view_access h0 r = Some a ->
  exists h2 v, hbind (if String.eqb s "-" then alloc (OInst "StdDescriptor" [("name", HStd d)]) else alloc (OInst "FileName" [("name", HStr s)]))
      (fun el => run! c := class_of el in
        if is_class c "FileName" then get_from_original_filename_with_ioinfo_h el r
        else if is_class c "StdDescriptor" then get_from_original_stddescriptor_with_ioinfo_h el r else hret HNone) h1 = (h2, Ok v) /\
    made (arg_kept h0 (HRef k)) h0 h1 h2 v (Res (mkRes (if String.eqb s "-" then StdDescriptor d else FileName s) a)) (brought_by_typer h0 (HRef k)).
Proof.
  intros C1 U K A. assert (Vr : valid h0 r) by (eapply slot_valid; [exact C0|exact K|cbn; auto]).
  set (o := if String.eqb s "-" then OInst "StdDescriptor" [("name", HStd d)] else OInst "FileName" [("name", HStr s)]).
  set (n := if String.eqb s "-" then HStd d else HStr s).
  set (o2 := OInst (if String.eqb s "-" then "StdDescriptorWithIOInfo" else "FileNameWithIOInfo") [("name", n); ("access", r)]).
  assert (C2 : closed (h1 ++ [o])) by (apply closed_snoc; [exact C1|]; unfold o; destruct (String.eqb s "-"); repeat constructor).
  assert (U2 : unchanged h0 (h1 ++ [o])) by (eapply unchanged_trans; [exact U|apply unchanged_snoc]).
  assert (V2 : Forall (valid (h1 ++ [o])) (slots o2)).
  { cbn. constructor; [unfold n; now destruct (String.eqb s "-")|]. constructor; [|constructor].
    eapply valid_mono; [apply unchanged_length, U2|exact Vr]. }
  exists ((h1 ++ [o]) ++ [o2]), (HRef (length (h1 ++ [o]))). split.
  - unfold o, o2, n. destruct (String.eqb s "-").
    + unfold hbind at 1. unfold alloc at 1. rewrite (bind_ok _ _ _ _ _ (class_ok _ _ _ _ (nth_last h1 _))). cbn [is_class].
      change (String.eqb "StdDescriptor" "FileName") with false. change (String.eqb "StdDescriptor" "StdDescriptor") with true. cbv iota.
      unfold get_from_original_stddescriptor_with_ioinfo_h. rewrite (bind_ok _ _ _ _ _ (get_attr_ok _ _ _ [("name", HStd d)] "name" (HStd d) (nth_last h1 _) eq_refl)). reflexivity.
    + unfold hbind at 1. unfold alloc at 1. rewrite (bind_ok _ _ _ _ _ (class_ok _ _ _ _ (nth_last h1 _))). cbn [is_class].
      change (String.eqb "FileName" "FileName") with true. cbv iota.
      unfold get_from_original_filename_with_ioinfo_h. rewrite (bind_ok _ _ _ _ _ (get_attr_ok _ _ _ [("name", HStr s)] "name" (HStr s) (nth_last h1 _) eq_refl)). reflexivity.
  - assert (U3 : unchanged h0 ((h1 ++ [o]) ++ [o2])) by (eapply unchanged_trans; [exact U2|apply unchanged_snoc]).
    split; [eapply unchanged_trans; apply unchanged_snoc|]. split; [now apply closed_snoc|].
    split; [cbn; rewrite !app_length; cbn; lia|]. split.
    + split; [|intros k' r' [= <-] K'; rewrite K in K'; injection K' as <-; eexists _, _, _; split; [reflexivity|]; split; [apply unchanged_length, U2|];
        split; [|apply nth_last]; destruct (String.eqb s "-"); cbn; auto].
      unfold arg_is. cbn [arg_value]. apply view_val_form.
      pose proof (nth_last (h1 ++ [o]) o2) as N. pose proof (view_access_stable _ _ _ _ (unchanged_stable _ _ U3) A) as A3.
      unfold o2, n in N |- *. destruct (String.eqb s "-").
      * eapply vf_std; [exact N|reflexivity|reflexivity|exact A3].
      * eapply vf_file; [exact N|reflexivity|reflexivity|exact A3].
    + intros l L. pose proof (unchanged_length _ _ U2) as L2. rewrite reaches_last by (auto; lia). split.
      * intros (v & [<-|[<-|[]]] & R).
        -- exfalso. unfold n in R. revert R. apply no_reach. intros j. now destruct (String.eqb s "-").
        -- exists k, r. split; [reflexivity|]. split; [exact K|]. now apply (reaches_same h0 (h1 ++ [o])).
      * intros (k' & r' & [= <-] & K' & R). rewrite K in K'. injection K' as <-. exists r. split; [right; now left|].
        eapply reaches_later; eauto.
Qed.

Lemma arg_spec h1 s t ty : closed h1 -> unchanged h0 h1 -> typer_is h0 t ty ->
  outcome (arg_kept h0 t) h0 h1 (apply_typer_to_arg_h (HStr s) t h1) (apply_typer_to_arg s ty) (brought_by_typer h0 t).
Proof.
  intros C1 U (k & w & r & -> & K & T). pose proof (nth_later _ _ _ _ U K) as K1. unfold apply_typer_to_arg_h.
  rewrite (bind_ok _ _ _ _ _ (get_attr_ok _ _ _ _ "0" (HStr w) K1 eq_refl)). destruct ty as [a| |]; destruct T as (-> & T); cbn [is_member].
  - change (String.eqb "filestd" "filestd") with true. cbv iota.
    rewrite (bind_ok _ _ _ _ _ (get_attr_ok _ _ _ _ "1" r K1 eq_refl)).
    assert (Ka : kind_of_access r h1 = (h1, Ok a)).
    { pose proof (view_access_stable _ _ _ _ (unchanged_stable _ _ U) T) as T1. revert T1. unfold view_access.
      destruct (attr h1 r "AccessKind" "kind") as [v|] eqn:E; [|discriminate]. destruct r; try discriminate.
      apply attr_class in E as (attrs & E1 & E2). intros T1. destruct v; try discriminate. injection T1 as <-.
      unfold kind_of_access. now rewrite (bind_ok _ _ _ _ _ (get_attr_ok _ _ _ _ _ _ E1 E2)). }
    rewrite (bind_ok _ _ _ _ _ Ka). cbn [apply_typer_to_arg].
    unfold compute_actual_el_for_input, compute_actual_el_for_output, compute_actual_el_for_input_h, compute_actual_el_for_output_h.
    destruct (is_any_input a); [|destruct (is_any_output a)].
    + destruct (resource_made h1 s STDIN k r a C1 U K T) as (h2 & v & E & M). unfold outcome.
      match goal with |- context [hbind ?m ?f h1] => replace (hbind m f h1) with (h2, @Ok hval v) end. exact M.
    + destruct (resource_made h1 s STDOUT k r a C1 U K T) as (h2 & v & E & M). unfold outcome.
      match goal with |- context [hbind ?m ?f h1] => replace (hbind m f h1) with (h2, @Ok hval v) end. exact M.
    + split; [reflexivity|apply unchanged_refl].
  - change (String.eqb "argstring" "filestd") with false. change (String.eqb "argstring" "argstring") with true. cbv iota.
    cbn [apply_typer_to_arg]. unfold alloc, outcome, made. split; [apply unchanged_snoc|].
    assert (V : Forall (valid h1) (slots (OInst "ArgStringType" [("name", HStr s)]))) by (repeat constructor).
    split; [now apply closed_snoc|]. split; [cbn; rewrite app_length; cbn; lia|]. split.
    + split; [|intros k' r' [= <-] K'; rewrite K in K'; discriminate].
      unfold arg_is. cbn [arg_value]. apply view_val_form. eapply vf_arg; [apply nth_last|reflexivity].
    + intros l L. pose proof (unchanged_length _ _ U). rewrite reaches_last by (auto; lia). split.
      * intros (v & [<-|[]] & R). exfalso. revert R. now apply no_reach.
      * intros (k' & r' & [= <-] & K' & R). rewrite K in K'. discriminate.
  - change (String.eqb "str" "filestd") with false. change (String.eqb "str" "argstring") with false. cbv iota.
    split; [reflexivity|apply unchanged_refl].
Qed.

Lemma flagoption_spec h1 x f t ty : closed h1 -> unchanged h0 h1 -> flagoption_is h0 x f -> typer_is h0 t ty ->
  outcome (flag_kept h0 x t) h0 h1 (apply_typer_to_flagoption_h x t h1) (apply_typer_to_flagoption f ty) (brought_by_flagoption h0 x t).
Proof.
  intros C1 U (l & -> & F) T. pose proof (unchanged_length _ _ U) as L0. unfold apply_typer_to_flagoption_h. destruct f as [n|n a].
  - pose proof (nth_later _ _ _ _ U F) as F1. rewrite (bind_ok _ _ _ _ _ (class_ok _ _ _ _ F1)). cbn [is_class].
    change (String.eqb "Flag" "Flag") with true. cbv iota. cbn [apply_typer_to_flagoption]. unfold hret, outcome, made.
    split; [apply unchanged_refl|]. split; [exact C1|]. split; [cbn; eapply nth_bound; eauto|]. split.
    + split; [|split; [reflexivity|intros (l' & attrs & [= <-] & E); congruence]].
      unfold flag_is. apply view_flag_form. eapply ff_flag; [exact F1|reflexivity].
    + intros j L. rewrite (reaches_same h0 h1) by (auto; cbn; eapply nth_bound; eauto). split.
      * intros R. left. split; [|exact R]. eexists _, _. eauto.
      * intros [(_ & R)|((l' & attrs & [= <-] & E) & _)]; [exact R|congruence].
  - pose proof (nth_later _ _ _ _ U F) as F1. rewrite (bind_ok _ _ _ _ _ (class_ok _ _ _ _ F1)). cbn [is_class].
    change (String.eqb "Option" "Flag") with false. change (String.eqb "Option" "Option") with true. cbv iota.
    pose proof (arg_spec h1 a t ty C1 U T) as A. destruct T as (k & w & r & -> & K & T).
    pose proof (nth_later _ _ _ _ U K) as K1.
    rewrite (bind_ok _ _ _ _ _ (get_attr_ok _ _ _ _ "0" (HStr w) K1 eq_refl)). cbn [apply_typer_to_flagoption is_member].
    assert (B : (String.eqb w "filestd" || String.eqb w "argstring")%bool = match ty with PLAINSTRING => false | _ => true end)
      by (destruct ty; destruct T as (-> & T); reflexivity).
    rewrite B. destruct (match ty with PLAINSTRING => false | _ => true end) eqn:X; [|split; [reflexivity|apply unchanged_refl]].
    unfold hbind at 1. cbn [hlift assert_ bind].
    rewrite (bind_ok _ _ _ _ _ (get_attr_ok _ _ _ _ "option_arg" (HStr a) F1 eq_refl)).
    unfold hbind at 1. destruct (apply_typer_to_arg_h (HStr a) (HRef k) h1) as (h2 & [v|e]); destruct (apply_typer_to_arg a ty) as [y|e'];
      cbn [outcome] in A; try contradiction; [|exact A].
    destruct A as (U2 & C2 & V2 & (I2 & Ka) & R2). cbn [bind]. pose proof (nth_later _ _ _ _ U2 F1) as F2.
    rewrite (bind_ok _ _ _ _ _ (get_attr_ok _ _ _ _ "option_name" (HStr n) F2 eq_refl)). unfold alloc, outcome, made.
    pose proof (unchanged_length _ _ U2) as L2.
    split; [eapply unchanged_trans; [exact U2|apply unchanged_snoc]|].
    assert (Vs : Forall (valid h2) (slots (OInst "OptionWithIO" [("option_name", HStr n); ("option_arg", v)]))) by (repeat constructor; exact V2).
    split; [now apply closed_snoc|]. split; [cbn; rewrite app_length; cbn; lia|]. split.
    + split; [|split; [intros (l' & attrs & [= <-] & E); congruence|intros _]].
      2:{ eexists _, _, _. split; [reflexivity|]. split; [lia|]. split; [apply nth_last|]. eapply access_later; [apply unchanged_snoc|exact Ka]. }
      unfold flag_is. apply view_flag_form. cbn [flag_value]. eapply ff_io; [apply nth_last|reflexivity|reflexivity|].
      eapply view_later; [apply unchanged_snoc|exact I2].
    + intros j L. rewrite reaches_last by (auto; lia). split.
      * intros (v' & [<-|[<-|[]]] & R); [exfalso; revert R; now apply no_reach|]. right. split; [eexists _, _; eauto|]. now apply R2.
      * intros [((l' & attrs & [= <-] & E) & _)|(_ & R)]; [congruence|]. exists v. split; [right; now left|]. now apply R2.
Qed.

(** A list made value by value *)
Lemma list_spec {X Y A : Type} (is : heap -> hval -> A -> Prop) (rel : X -> Y -> Prop) (f : X -> hm hval) (g : Y -> result A) (P : X -> loc -> Prop)
  (own : X -> heap -> hval -> Prop) :
  (forall h h' v x, unchanged h h' -> is h v x -> is h' v x) ->
  (forall x h h' v, unchanged h h' -> own x h v -> own x h' v) ->
  (forall h1 x y, closed h1 -> unchanged h0 h1 -> rel x y -> outcome (fun h v a => is h v a /\ own x h v) h0 h1 (f x h1) (g y) (P x)) ->
  forall xs ys, Forall2 rel xs ys -> forall h1, closed h1 -> unchanged h0 h1 ->
  match hmap f xs h1, map_result g ys with
  | (h2, Ok vs), Ok ws => unchanged h1 h2 /\ closed h2 /\ Forall (valid h2) vs /\ Forall2 (is h2) vs ws /\ Forall2 (fun x v => own x h2 v) xs vs /\
      forall l, l < length h0 -> ((exists v, In v vs /\ reaches h2 v l) <-> exists x, In x xs /\ P x l)
  | (h2, Raise e), Raise e' => e = e' /\ unchanged h1 h2
  | _, _ => False
  end.
Proof.
  intros Later Later' F. induction 1 as [|x y xs ys R Rs IH]; intros h1 C1 U1; cbn [hmap map_result].
  - unfold hret. split; [apply unchanged_refl|]. split; [exact C1|]. split; [constructor|]. split; [constructor|]. split; [constructor|].
    intros l _. split; intros (v & [] & _).
  - specialize (F h1 x y C1 U1 R). unfold hbind at 1.
    destruct (f x h1) as (h2 & [v|e]); destruct (g y) as [w|e']; cbn [outcome bind] in F |- *; try contradiction; [|exact F].
    destruct F as (U2 & C2 & V2 & (I2 & O2) & R2). pose proof (unchanged_trans _ _ _ U1 U2) as U02.
    specialize (IH h2 C2 U02). unfold hbind at 1.
    destruct (hmap f xs h2) as (h3 & [vs|e]); destruct (map_result g ys) as [ws|e']; cbn [bind]; try contradiction.
    + destruct IH as (U3 & C3 & V3 & I3 & O3 & R3). unfold hret. split; [eapply unchanged_trans; eauto|]. split; [exact C3|].
      split; [constructor; [eapply valid_mono; [apply unchanged_length, U3|exact V2]|exact V3]|].
      split; [constructor; [eapply Later; eauto|exact I3]|].
      split; [constructor; [eapply Later'; eauto|exact O3]|]. intros l L. split.
      * intros (v' & [<-|I] & Rv).
        -- exists x. split; [now left|]. apply R2; [exact L|]. now apply (reaches_same h2 h3).
        -- destruct (proj1 (R3 l L)) as (x' & Ix & Px); [eauto|]. exists x'. split; [now right|exact Px].
      * intros (x' & [<-|I] & Px).
        -- exists v. split; [now left|]. apply (reaches_same h2 h3); auto. now apply R2.
        -- destruct (proj2 (R3 l L)) as (v' & Iv & Rv); [eauto|]. exists v'. split; [now right|exact Rv].
    + destruct IH as (-> & U3). split; [reflexivity|]. eapply unchanged_trans; eauto.
Qed.
End Apply.

Lemma Forall2_combine {A B A' B'} (R : A -> A' -> Prop) (S : B -> B' -> Prop) l l' m m' :
  Forall2 R l l' -> Forall2 S m m' -> Forall2 (fun p q => R (fst p) (fst q) /\ S (snd p) (snd q)) (combine l m) (combine l' m').
Proof.
  intros F. revert m m'. induction F as [|x y l l' X F IH]; intros m m' G; cbn; [constructor|]. destruct G; constructor; auto.
Qed.
Lemma Forall2_later {A} (is : heap -> hval -> A -> Prop) h h' vs l : (forall v x, is h v x -> is h' v x) -> Forall2 (is h) vs l -> Forall2 (is h') vs l.
Proof. intros M. induction 1; constructor; auto. Qed.
Lemma Forall2_impl' {A B} (R S : A -> B -> Prop) l m : (forall x y, R x y -> S x y) -> Forall2 R l m -> Forall2 S l m.
Proof. intros I. induction 1; constructor; auto. Qed.
Lemma resource_later h h' x r : unchanged h h' -> resource_is h x r -> resource_is h' x r.
Proof. intros U. destruct r; cbn; auto. now apply view_later. Qed.
Lemma flag_later h h' v f : unchanged h h' -> flag_is h v f -> flag_is h' v f.
Proof. intros U. apply view_flag_stable, unchanged_stable, U. Qed.

Lemma apply_spec h x y fos ops fts ots i o info inv : closed h -> info_is h x fts ots i o info -> invocation_is h y fos ops inv ->
  outcome (fun h' v c => invocation_io_is h' v c /\ keeps h fos fts ops ots h' v) h h (apply_io_info_h x y h) (apply_io_info info inv) (shared h fos fts ops ots i o).
Proof.
  intros C (a & ft & ot & -> & Ei & (a1 & -> & Lft & Fft) & (a2 & -> & Lot & Fot) & Ri & Ro)
    (b & fl & ol & -> & Ec & (b1 & -> & Lfl & Ffl) & (b2 & -> & Lol & Fol)).
  unfold apply_io_info_h.
  rewrite (bind_ok _ _ _ _ _ (get_attr_ok _ _ _ _ "flag_option_list" _ Ec eq_refl)).
  rewrite (bind_ok _ _ _ _ _ (get_attr_ok _ _ _ _ "flagoption_list_typer" _ Ei eq_refl)).
  rewrite (bind_ok _ _ _ _ _ (items_ok _ _ _ Lfl)), (bind_ok _ _ _ _ _ (items_ok _ _ _ Lft)).
  unfold apply_io_info.
  pose proof (list_spec h flag_is (fun p q => flagoption_is h (fst p) (fst q) /\ typer_is h (snd p) (snd q))
    (fun p => apply_typer_to_flagoption_h (fst p) (snd p)) (fun p => apply_typer_to_flagoption (fst p) (snd p))
    (fun p => brought_by_flagoption h (fst p) (snd p)) (fun p => keeps_flagoption h (fst p) (snd p)) flag_later
    (fun p => flagoption_later h (fst p) (snd p))
    (fun h1 p q C1 U1 R => flagoption_spec h C h1 _ _ _ _ C1 U1 (proj1 R) (proj2 R))
    _ _ (Forall2_combine _ _ _ _ _ _ Ffl Fft) h C (unchanged_refl h)) as M1.
  unfold hbind at 1.
  destruct (hmap _ (combine fos fts) h) as (h1 & [vs|e]); destruct (map_result _ (combine (flag_option_list inv) _)) as [ws|e'];
    cbn [bind]; try contradiction; [|exact M1].
  destruct M1 as (U1 & C1 & V1 & I1 & O1 & R1). unfold hbind at 1. unfold alloc at 1.
  set (h2 := h1 ++ [OList vs]). assert (U12 : unchanged h1 h2) by apply unchanged_snoc.
  assert (U2 : unchanged h h2) by (eapply unchanged_trans; eauto). assert (C2 : closed h2) by now apply closed_snoc.
  rewrite (bind_ok _ _ _ _ _ (get_attr_ok _ _ _ _ "operand_list" _ (nth_later _ _ _ _ U2 Ec) eq_refl)).
  rewrite (bind_ok _ _ _ _ _ (get_attr_ok _ _ _ _ "operand_list_typer" _ (nth_later _ _ _ _ U2 Ei) eq_refl)).
  rewrite (bind_ok _ _ _ _ _ (items_ok _ _ _ (nth_later _ _ _ _ U2 Lol))), (bind_ok _ _ _ _ _ (items_ok _ _ _ (nth_later _ _ _ _ U2 Lot))).
  assert (Op : forall h1 p q, closed h1 -> unchanged h h1 -> operand_is h (fst p) (fst q) /\ typer_is h (snd p) (snd q) ->
    outcome (arg_kept h (snd p)) h h1 ((run! n := get_attr (fst p) "name" in apply_typer_to_arg_h n (snd p)) h1) (apply_typer_to_arg (fst q) (snd q)) (brought_by_typer h (snd p))).
  { intros h' p q C' U' ((l & E & N) & T). rewrite E.
    rewrite (bind_ok _ _ _ _ _ (get_attr_ok _ _ _ _ "name" _ (nth_later _ _ _ _ U' N) eq_refl)). now apply arg_spec. }
  pose proof (list_spec h arg_is _ (fun p => run! n := get_attr (fst p) "name" in apply_typer_to_arg_h n (snd p))
    (fun p => apply_typer_to_arg (fst p) (snd p)) (fun p => brought_by_typer h (snd p)) (fun p => keeps_access h (snd p)) (fun h h' v x => view_later h h' v (arg_value x))
    (fun p => access_later h (snd p)) Op
    _ _ (Forall2_combine _ _ _ _ _ _ Fol Fot) h2 C2 U2) as M2.
  unfold hbind at 1.
  destruct (hmap _ (combine ops ots) h2) as (h3 & [us|e]); destruct (map_result _ (combine (operand_list inv) _)) as [zs|e'];
    cbn [bind]; try contradiction; [|destruct M2 as (-> & M2); split; [reflexivity|eapply unchanged_trans; eauto]].
  destruct M2 as (U3 & C3 & V3 & I3 & O3 & R3). unfold hbind at 1. unfold alloc at 1.
  set (h4 := h3 ++ [OList us]). assert (U34 : unchanged h3 h4) by apply unchanged_snoc.
  assert (U24 : unchanged h2 h4) by (eapply unchanged_trans; eauto).
  assert (U4 : unchanged h h4) by (eapply unchanged_trans; eauto). assert (C4 : closed h4) by now apply closed_snoc.
  rewrite (bind_ok _ _ _ _ _ (get_attr_ok _ _ _ _ "cmd_name" _ (nth_later _ _ _ _ U4 Ec) eq_refl)).
  rewrite (bind_ok _ _ _ _ _ (get_attr_ok _ _ _ _ "implicit_use_of_streaming_input" _ (nth_later _ _ _ _ U4 Ei) eq_refl)).
  rewrite (bind_ok _ _ _ _ _ (get_attr_ok _ _ _ _ "implicit_use_of_streaming_output" _ (nth_later _ _ _ _ U4 Ei) eq_refl)).
  unfold alloc, outcome, made.
  set (c := OInst "CommandInvocationWithIO" _). set (h5 := h4 ++ [c]). assert (U45 : unchanged h4 h5) by apply unchanged_snoc.
  assert (U5 : unchanged h h5) by (eapply unchanged_trans; eauto).
  pose proof (unchanged_length _ _ U1) as L1. pose proof (unchanged_length _ _ U3) as L3. pose proof (unchanged_length _ _ U4) as L4.
  pose proof (unchanged_length _ _ U24) as L24.
  assert (Len2 : length h2 = S (length h1)) by (unfold h2; rewrite app_length; cbn; lia).
  assert (Len4 : length h4 = S (length h3)) by (unfold h4; rewrite app_length; cbn; lia).
  assert (Vi : valid h i) by (eapply slot_valid; [exact C|exact Ei|cbn; auto]).
  assert (Vo : valid h o) by (eapply slot_valid; [exact C|exact Ei|cbn; auto]).
  assert (Vc : Forall (valid h4) (slots c)).
  { cbn. constructor; [exact I|]. constructor; [cbn; lia|]. constructor; [cbn; lia|].
    constructor; [eapply valid_mono; [|exact Vi]; lia|]. constructor; [eapply valid_mono; [|exact Vo]; lia|constructor]. }
  split; [exact U5|]. split; [now apply closed_snoc|]. split; [cbn; unfold h5; rewrite app_length; cbn; lia|]. split.
  - assert (U25 : unchanged h2 h5) by (eapply unchanged_trans; eauto). assert (U35 : unchanged h3 h5) by (eapply unchanged_trans; eauto).
    split.
    2:{ exists vs, us. split; [|split].
        - eexists _, _, _, _. split; [reflexivity|]. split; [apply nth_last|]. split; [reflexivity|].
          split; [eapply nth_later; [exact U25|]; apply nth_last|]. split; [reflexivity|]. eapply nth_later; [exact U45|]. apply nth_last.
        - eapply Forall2_impl'; [|exact O1]. intros p v. cbv beta. apply flagoption_later. eapply unchanged_trans; [exact U12|exact U25].
        - eapply Forall2_impl'; [|exact O3]. intros p v. cbv beta. apply access_later. exact U35. }
    exists (length h4), (HRef (length h1)), (HRef (length h3)), i, o, vs, us. split; [reflexivity|]. split; [apply nth_last|].
    split; [|split; [|split]].
    + exists (length h1). split; [reflexivity|]. split.
      * eapply nth_later; [exact U45|]. eapply nth_later; [exact U24|]. apply nth_last.
      * change (Forall2 (flag_is h5) vs ws). eapply Forall2_later; [|exact I1]. intros v f Hf. eapply flag_later; [|exact Hf].
        eapply unchanged_trans; [exact U12|exact U25].
    + exists (length h3). split; [reflexivity|]. split.
      * eapply nth_later; [exact U45|]. apply nth_last.
      * change (Forall2 (arg_is h5) us zs). eapply Forall2_later; [|exact I3]. intros v p Hp. eapply view_later; [exact U35|exact Hp].
    + eapply resource_later; [exact U5|exact Ri].
    + eapply resource_later; [exact U5|exact Ro].
  - intros l L. unfold h5. rewrite reaches_last by (auto; lia).
    assert (Rf : reaches h4 (HRef (length h1)) l <-> exists fo t, In (fo, t) (combine fos fts) /\ brought_by_flagoption h fo t l).
    { rewrite (reaches_same h2 h4) by (auto; cbn; lia). unfold h2. rewrite reaches_last by (auto; lia). cbn [slots]. rewrite R1 by exact L.
      split; [intros ((fo & t) & A & B); eauto|intros (fo & t & A & B); exists (fo, t); auto]. }
    assert (Rp : reaches h4 (HRef (length h3)) l <-> exists op t, In (op, t) (combine ops ots) /\ brought_by_typer h t l).
    { unfold h4. rewrite reaches_last by (auto; lia). cbn [slots]. rewrite R3 by exact L.
      split; [intros ((op & t) & A & B); eauto|intros (op & t & A & B); exists (op, t); auto]. }
    unfold shared. rewrite <- Rf, <- Rp, <- (reaches_same h h4 i l), <- (reaches_same h h4 o l) by auto. cbn. split.
    + intros (v & [<-|[<-|[<-|[<-|[<-|[]]]]]] & R); auto. exfalso. revert R. now apply no_reach.
    + intros [R|[R|[R|R]]]; eexists; (split; [|exact R]); auto 8.
Qed.
