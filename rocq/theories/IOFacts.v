(** * Facts about input/output information *)
Require Import Verif.PyBase Verif.JsonData Verif.Parser Verif.Access Verif.IOInfo Verif.IOGen
  Verif.SpecParser Verif.SpecIO Verif.ParserFacts.
From Coq Require Import Permutation Lia.

Local Arguments mem : simpl never.

(** ** General *)
Lemma map_result_Forall2 {A B} (f : A -> result B) l : forall l',
  map_result f l = Ok l' <-> Forall2 (fun x y => f x = Ok y) l l'.
Proof.
  induction l as [|x l IH]; intros l'; cbn.
  - split; [intros [= <-]; constructor | inversion 1; reflexivity].
  - destruct (f x) as [y|e] eqn:E; cbn.
    + destruct (map_result f l) as [ys|e] eqn:E2; cbn.
      * split.
        -- intros [= <-]. constructor; [exact E | apply IH; reflexivity].
        -- inversion 1 as [|? y' ? ys' H1 H2]; subst. apply IH in H2. congruence.
      * split; [discriminate|]. inversion 1 as [|? y' ? ys' H1 H2]; subst. apply IH in H2. congruence.
    + split; [discriminate|]. inversion 1; subst; congruence.
Qed.

Lemma Forall2_len {A B} (R : A -> B -> Prop) l l' : Forall2 R l l' -> length l = length l'.
Proof. induction 1; cbn; congruence. Qed.

Lemma map_result_map {A B} (f : A -> result B) (g : A -> B) l :
  (forall x, In x l -> f x = Ok (g x)) -> map_result f l = Ok (map g l).
Proof.
  intros H. apply map_result_Forall2. induction l; cbn; constructor.
  - apply H; left; reflexivity.
  - apply IHl. intros; apply H; right; assumption.
Qed.

(** ** Access kinds *)
Lemma access_named_iff s a : access_named s a <-> get_access_from_string s = Ok a.
Proof.
  unfold access_named, get_access_from_string. split.
  - intros H. repeat (destruct H as [[-> ->]|H]; [reflexivity|]). destruct H as [-> ->]. reflexivity.
  - repeat match goal with
    | |- context [String.eqb s ?x] => destruct (String.eqb_spec s x) as [->|?]
    end; intros [= <-]; tauto.
Qed.

Lemma is_any_input_iff a : is_any_input a = true <-> input_access a.
Proof. unfold input_access; destruct a; cbn; split; intros; try discriminate; auto; repeat (destruct H as [H|H]; try discriminate H); try discriminate. Qed.
Lemma is_any_output_iff a : is_any_output a = true <-> output_access a.
Proof. unfold output_access; destruct a; cbn; split; intros; try discriminate; auto; repeat (destruct H as [H|H]; try discriminate H); try discriminate. Qed.
Lemma input_or_output a : (input_access a /\ ~ output_access a) \/ (output_access a /\ ~ input_access a).
Proof.
  unfold input_access, output_access; destruct a;
    first [left; split; [tauto|intros [?|?]; discriminate]
          |right; split; [tauto|intros [?|[?|[?|[?|?]]]]; discriminate]].
Qed.

(** ** Applying typers *)
Lemma denotes_iff a s el : denotes a s el <->
  el = if is_any_input a then compute_actual_el_for_input s else compute_actual_el_for_output s.
Proof.
  unfold compute_actual_el_for_input, compute_actual_el_for_output.
  destruct (is_any_input a) eqn:E.
  - apply is_any_input_iff in E. destruct (String.eqb_spec s "-") as [->|N]; split.
    + inversion 1; subst; try reflexivity; try congruence.
      destruct (input_or_output a); tauto.
    + intros ->. now constructor.
    + inversion 1; subst; congruence.
    + intros ->. now constructor.
  - assert (O : output_access a).
    { destruct (input_or_output a) as [[H _]|[H _]]; [|exact H].
      apply is_any_input_iff in H. congruence. }
    destruct (String.eqb_spec s "-") as [->|N]; split.
    + inversion 1; subst; try reflexivity; try congruence.
      destruct (input_or_output a); tauto.
    + intros ->. now constructor.
    + inversion 1; subst; congruence.
    + intros ->. now constructor.
Qed.

Definition typer_of (d : option access) : typer :=
  match d with Some a => FILESTD a | None => ARGSTRING end.

Lemma apply_file a s : apply_typer_to_arg s (FILESTD a) =
  Ok (Res (mkRes (if is_any_input a then compute_actual_el_for_input s else compute_actual_el_for_output s) a)).
Proof. destruct a; reflexivity. Qed.

Lemma apply_option_arg d s x : apply_typer_to_arg s (typer_of d) = Ok x <-> option_arg_io d s x.
Proof.
  destruct d as [a|]; cbn [typer_of].
  - rewrite apply_file. split.
    + intros [= <-]. constructor. now apply denotes_iff.
    + inversion 1 as [|? ? el D]; subst. apply denotes_iff in D. now subst el.
  - cbn. split; [intros [= <-]; constructor | inversion 1; reflexivity].
Qed.

Lemma apply_in a : input_access a -> forall s, apply_typer_to_arg s (FILESTD a) = Ok (in_file a s).
Proof. intros H s. rewrite apply_file. apply is_any_input_iff in H. rewrite H. reflexivity. Qed.
Lemma apply_out a : output_access a -> forall s, apply_typer_to_arg s (FILESTD a) = Ok (out_file a s).
Proof.
  intros H s. rewrite apply_file. destruct (is_any_input a) eqn:E.
  - apply is_any_input_iff in E. destruct (input_or_output a); tauto.
  - reflexivity.
Qed.

Definition apply_operands (ops : list string) (ts : list typer) : result (list io_arg) :=
  map_result (fun p => apply_typer_to_arg (fst p) (snd p)) (combine ops ts).

Lemma apply_operands_repeat t f ops : (forall s, apply_typer_to_arg s t = Ok (f s)) ->
  apply_operands ops (repeat t (length ops)) = Ok (map f ops).
Proof.
  intros H. unfold apply_operands. induction ops as [|o ops IH]; cbn; [reflexivity|].
  rewrite H. cbn. rewrite IH. reflexivity.
Qed.

Lemma apply_operands_last t f t' f' ops o :
  (forall s, apply_typer_to_arg s t = Ok (f s)) -> (forall s, apply_typer_to_arg s t' = Ok (f' s)) ->
  apply_operands (ops ++ [o]) (repeat t (length ops) ++ [t']) = Ok (map f ops ++ [f' o]).
Proof.
  intros H H'. unfold apply_operands. induction ops as [|p ops IH]; cbn.
  - rewrite H'. reflexivity.
  - rewrite H. cbn. rewrite IH. reflexivity.
Qed.

(** ** Classification of options *)
Lemma option_class_iff e n t : option_class e = Ok (n, t) <->
  filed_under e n /\ exists d, declares e d /\ t = typer_of d.
Proof.
  assert (F : forall ty, mem ty INDICATORS_FOR_FILENAMES = true <-> file_type ty).
  { intros ty. rewrite mem_In. unfold file_type. cbn. intuition congruence. }
  unfold option_class, filed_under. split.
  - intros H.
    destruct (oe_names e) as [|m ms].
    + destruct (oe_arg e) as [s|l] eqn:A; cbn in H; [|discriminate].
      destruct (mem s INDICATORS_FOR_FILENAMES) eqn:M; cbn in H; [discriminate|].
      injection H as <- <-. split; [reflexivity|]. exists None. split; [|reflexivity].
      eapply declares_plain; [exact A|]. rewrite <- F, M; intro; discriminate.
    + cbn in H. destruct (oe_arg e) as [s|l] eqn:A.
      * destruct (mem s INDICATORS_FOR_FILENAMES) eqn:M; cbn in H; [discriminate|].
        injection H as <- <-. split; [reflexivity|]. exists None. split; [|reflexivity].
        eapply declares_plain; [exact A|]. rewrite <- F, M; intro; discriminate.
      * destruct l as [|ty [|ac rest]]; try discriminate H.
        destruct (get_access_from_string ac) as [a|] eqn:G; cbn in H; [|discriminate].
        apply access_named_iff in G. injection H as <- <-. split; [reflexivity|].
        destruct (mem ty INDICATORS_FOR_FILENAMES) eqn:M.
        -- exists (Some a). split; [|reflexivity]. eapply declares_file; [exact A| |exact G]. now apply F.
        -- exists None. split; [|reflexivity]. eapply declares_string; [exact A| |exact G]. rewrite <- F, M; intro; discriminate.
  - intros [U [d [D ->]]].
    assert (N : match oe_names e with n0 :: _ => Ok n0
                | [] => match oe_arg e with OAStr s => Ok s | OAList _ => Raise TypeError end end = Ok n).
    { destruct (oe_names e); [rewrite U; reflexivity | now subst]. }
    rewrite N. cbn [bind].
    inversion D as [ty ac rest a A T G|ty ac rest a A T G|ty A T]; subst d; rewrite A; cbn.
    + apply access_named_iff in G. rewrite G. cbn. apply F in T. rewrite T. reflexivity.
    + apply access_named_iff in G. rewrite G. cbn.
      destruct (mem ty INDICATORS_FOR_FILENAMES) eqn:M; [apply F in M; tauto|].
      reflexivity.
    + destruct (mem ty INDICATORS_FOR_FILENAMES) eqn:M; [apply F in M; tauto|].
      reflexivity.
Qed.

Lemma declares_fun e d d' : declares e d -> declares e d' -> d = d'.
Proof.
  intros H H'.
  assert (G : forall s a a', access_named s a -> access_named s a' -> a = a').
  { intros s a a' K K'. apply access_named_iff in K, K'. congruence. }
  inversion H as [ty ac rest a A T K|ty ac rest a A T K|ty A T];
  inversion H' as [ty' ac' rest' a' A' T' K'|ty' ac' rest' a' A' T' K'|ty' A' T']; subst;
    try reflexivity; rewrite A in A'; try discriminate A'; injection A' as <- <- <-; try contradiction.
  f_equal. eapply G; eassumption.
Qed.

Lemma fold_dict_set {V} (es : list (string * V)) : forall d,
  fold_left (fun d p => dict_set d (fst p) (snd p)) es d = rev es ++ d.
Proof.
  induction es as [|[n v] es IH]; intros d; cbn; [reflexivity|].
  rewrite IH. unfold dict_set. rewrite <- app_assoc. reflexivity.
Qed.

Lemma dict_find_app {V} (a b : dict V) n : dict_find (a ++ b) n =
  match dict_find a n with Some v => Some v | None => dict_find b n end.
Proof. induction a as [|[k v] a IH]; cbn; [reflexivity|]. destruct (String.eqb n k); auto. Qed.

Lemma dict_find_None {V} (d : dict V) n : dict_find d n = None <-> ~ In n (map fst d).
Proof.
  induction d as [|[k v] d IH]; cbn; [tauto|].
  destruct (String.eqb_spec n k) as [->|N]; [intuition discriminate|].
  rewrite IH. intuition congruence.
Qed.

Lemma dict_find_rev {V} (es : list (string * V)) n v : dict_find (rev es) n = Some v <->
  exists pre post, es = pre ++ (n, v) :: post /\ ~ In n (map fst post).
Proof.
  induction es as [|[k w] es IH]; cbn.
  - split; [discriminate|]. intros (pre & post & E & _). now destruct pre.
  - rewrite dict_find_app. destruct (dict_find (rev es) n) as [v'|] eqn:F.
    + split.
      * intros [= <-]. destruct (proj1 IH eq_refl) as (pre & post & -> & N).
        exists ((k, w) :: pre), post. auto.
      * intros (pre & post & E & N). destruct pre as [|x pre]; cbn in E; [injection E as -> -> ->|injection E as E1 E2].
        -- exfalso. apply N.
           assert (X : In n (map fst (rev post))).
           { destruct (in_dec string_dec n (map fst (rev post))) as [I|I]; [exact I|].
             apply dict_find_None in I. congruence. }
           apply in_map_iff in X as [p [X1 X2]]. apply in_rev in X2. apply in_map_iff. eauto.
        -- apply IH. eauto.
    + cbn. destruct (String.eqb_spec n k) as [->|N].
      * apply dict_find_None in F. split.
        -- intros [= <-]. exists [], es. split; [reflexivity|]. intros I. apply F.
           rewrite map_rev. now apply -> in_rev.
        -- intros (pre & post & E & N). destruct pre as [|x pre]; cbn in E; [congruence|injection E as E1 E2].
           exfalso. apply F. rewrite map_rev. apply -> in_rev. subst es.
           rewrite map_app. apply in_or_app. right. left. reflexivity.
      * split; [discriminate|]. intros (pre & post & E & M).
        destruct pre as [|x pre]; cbn in E; [congruence|injection E as E1 E2].
        apply IH. eauto.
Qed.

Lemma Forall2_split {A B} (R : A -> B -> Prop) l : forall b1 y b2, Forall2 R l (b1 ++ y :: b2) ->
  exists a1 x a2, l = a1 ++ x :: a2 /\ R x y /\ Forall2 R a1 b1 /\ Forall2 R a2 b2.
Proof.
  intros b1 y b2 H. apply Forall2_app_inv_r in H as (a1 & r & H1 & H2 & ->).
  inversion H2 as [|x y' a2 b2' R1 R2]; subst. exists a1, x, a2. auto.
Qed.
Lemma Forall2_split_l {A B} (R : A -> B -> Prop) l : forall b1 y b2, Forall2 R (b1 ++ y :: b2) l ->
  exists a1 x a2, l = a1 ++ x :: a2 /\ R y x /\ Forall2 R b1 a1 /\ Forall2 R b2 a2.
Proof.
  intros b1 y b2 H. apply Forall2_app_inv_l in H as (a1 & r & H1 & H2 & ->).
  inversion H2 as [|y' x b2' a2 R1 R2]; subst. exists a1, x, a2. auto.
Qed.

Lemma filed_under_fun e n m : filed_under e n -> filed_under e m -> n = m.
Proof. unfold filed_under. destruct (oe_names e); congruence. Qed.

Lemma dict_class_iff dir name d :
  get_dict_option_to_class_for_arg dir name = Ok d ->
  exists j, loads dir name j /\ classifiable j /\
  forall n t, dict_get d n = Ok t <-> exists a, declared_as j n a /\ t = typer_of a.
Proof.
  unfold get_dict_option_to_class_for_arg.
  destruct (get_json_data dir name) as [j|e] eqn:J; [|discriminate]. cbn.
  destruct (map_result option_class (j_option j)) as [es|e] eqn:E; [|discriminate]. cbn.
  intros [= <-]. apply get_json_data_ok in J. apply map_result_Forall2 in E.
  exists j. split; [exact J|]. split.
  - intros e He. apply in_split in He as (l1 & l2 & H). rewrite H in E.
    apply Forall2_split_l in E as (a1 & [n t] & a2 & _ & X & _).
    apply option_class_iff in X as (U & d & D & _). eauto.
  - intros n t. unfold dict_get. rewrite fold_dict_set, app_nil_r.
    transitivity (dict_find (rev es) n = Some t).
    { destruct (dict_find (rev es) n); split; congruence. }
    rewrite dict_find_rev. split.
    + intros (pre & post & -> & N).
      apply Forall2_split in E as (a1 & e & a2 & H & X & _ & Y).
      apply option_class_iff in X as (U & a & D & ->). exists a. split; [|reflexivity].
      exists a1, e, a2. repeat split; auto. intros e' He' U'. apply N.
      apply in_split in He' as (l1 & l2 & ->).
      apply Forall2_split_l in Y as (b1 & [n' t'] & b2 & -> & X & _).
      apply option_class_iff in X as (U'' & _). pose proof (filed_under_fun _ _ _ U' U''); subst n'.
      rewrite map_app. apply in_or_app. right. left. reflexivity.
    + intros (a & (pre & e & post & H & U & D & N) & ->).
      rewrite H in E. apply Forall2_split_l in E as (b1 & [n' t'] & b2 & -> & X & _ & Y).
      apply option_class_iff in X as (U' & a' & D' & ->).
      pose proof (filed_under_fun _ _ _ U U'); subst n'.
      rewrite (declares_fun _ _ _ D D'). exists b1, b2. split; [reflexivity|].
      intros I. apply in_map_iff in I as ([n' t'] & En & I). cbn in En; subst n'.
      apply in_split in I as (l1 & l2 & ->).
      apply Forall2_split in Y as (c1 & e' & c2 & -> & X & _).
      apply option_class_iff in X as (U'' & _). eapply N; [|exact U''].
      apply in_or_app. right. left. reflexivity.
Qed.

Lemma dict_class_total dir name j : loads dir name j -> classifiable j ->
  exists d, get_dict_option_to_class_for_arg dir name = Ok d.
Proof.
  intros L C. unfold get_dict_option_to_class_for_arg. apply get_json_data_ok in L. rewrite L. cbn.
  assert (X : exists es, map_result option_class (j_option j) = Ok es).
  { unfold classifiable in C. revert C. induction (j_option j) as [|e l IH]; intros C; cbn; [eauto|].
    destruct (C e (or_introl eq_refl)) as [[n U] [a D]].
    assert (X : option_class e = Ok (n, typer_of a)) by (apply option_class_iff; eauto).
    rewrite X. cbn. destruct IH as [es ->]; [intros; apply C; right; assumption|]. cbn. eauto. }
  destruct X as [es ->]. cbn. eauto.
Qed.

Lemma loads_fun dir name j j' : loads dir name j -> loads dir name j' -> j = j'.
Proof. intros H H'. apply get_json_data_ok in H, H'. congruence. Qed.
Lemma declared_as_fun j n a b : declared_as j n a -> declared_as j n b -> a = b.
Proof.
  intros (p & e & q & E & U & D & N) (p' & e' & q' & E' & U' & D' & N').
  assert (K : forall p p' q q', p ++ e :: q = p' ++ e' :: q' ->
            (forall x, In x q -> ~ filed_under x n) -> (forall x, In x q' -> ~ filed_under x n) -> e = e').
  { clear -U U'. induction p as [|x p IH]; intros p' q q' E N N'; destruct p' as [|y p']; cbn in E; injection E as E1 E2.
    - exact E1.
    - exfalso. apply (N e'); [|exact U']. subst q. apply in_or_app. right. left. reflexivity.
    - exfalso. apply (N' e); [|exact U]. subst q'. apply in_or_app. right. left. reflexivity.
    - eapply IH; eauto. }
  assert (e = e') by (eapply K; [rewrite <- E; exact E'|..]; assumption). subst e'.
  eapply declares_fun; eassumption.
Qed.

Definition apply_flagoptions (fos : list flag_option) (ts : list typer) : result (list flag_option_io) :=
  map_result (fun p => apply_typer_to_flagoption (fst p) (snd p)) (combine fos ts).

(** The typer list of an invocation, applied, is the declared classification. *)
Lemma typer_applied dir inv fos :
  (exists ts, get_flagoption_list_typer dir inv = Ok ts /\
              apply_flagoptions (flag_option_list inv) ts = Ok fos)
  <-> options_classified dir inv fos.
Proof.
  unfold get_flagoption_list_typer, options_classified, apply_flagoptions. split.
  - intros (ts & H & A).
    destruct (get_dict_option_to_class_for_arg dir (cmd_name inv)) as [d|e] eqn:G; [|discriminate].
    cbn in H. apply dict_class_iff in G as (j & L & C & K). exists j. split; [exact L|]. split; [exact C|].
    revert ts fos H A. induction (flag_option_list inv) as [|fo l IH]; intros ts fos H A.
    + cbn in H. injection H as <-. cbn in A. injection A as <-. constructor.
    + cbn in H. destruct fo as [n|n s].
      * cbn in H. match type of H with (bind ?x _) = _ => destruct x as [ts'|] eqn:X; [|discriminate] end.
        cbn in H. injection H as <-. cbn in A.
        match type of A with (bind ?x _) = _ => destruct x as [fos'|] eqn:Y; [|discriminate] end.
        cbn in A. injection A as <-. constructor; [constructor|]. eapply IH; [reflexivity|exact Y].
      * destruct (dict_get d n) as [t|] eqn:D; [|discriminate]. cbn in H.
        match type of H with (bind ?x _) = _ => destruct x as [ts'|] eqn:X; [|discriminate] end.
        cbn in H. injection H as <-. apply K in D as (a & D & ->).
        cbn in A. assert (P : match typer_of a with PLAINSTRING => false | _ => true end = true) by (destruct a; reflexivity).
        rewrite P in A. cbn in A.
        destruct (apply_typer_to_arg s (typer_of a)) as [x|] eqn:Z; [|discriminate]. cbn in A.
        match type of A with (bind ?x _) = _ => destruct x as [fos'|] eqn:Y; [|discriminate] end.
        cbn in A. injection A as <-. constructor.
        -- econstructor; [exact D|]. now apply apply_option_arg.
        -- eapply IH; [reflexivity|exact Y].
  - intros (j & L & C & F).
    destruct (dict_class_total dir (cmd_name inv) j L C) as [d G]. rewrite G. cbn.
    apply dict_class_iff in G as (j' & L' & _ & K).
    pose proof (loads_fun _ _ _ _ L L'); subst j'.
    induction F as [|fo fio l l' H F IH]; cbn; [exists []; auto|].
    destruct IH as (ts & H1 & H2). inversion H as [n|n s a x D O]; subst; cbn.
    + rewrite H1. cbn. exists (PLAINSTRING :: ts). split; [reflexivity|]. cbn. rewrite H2. reflexivity.
    + assert (X : dict_get d n = Ok (typer_of a)) by (apply K; eauto). rewrite X. cbn. rewrite H1. cbn.
      exists (typer_of a :: ts). split; [reflexivity|]. cbn.
      replace (match typer_of a with PLAINSTRING => false | _ => true end) with true by (destruct a; reflexivity).
      cbn. apply apply_option_arg in O. rewrite O. cbn. rewrite H2. reflexivity.
Qed.

Lemma typer_always_applies dir inv ts : get_flagoption_list_typer dir inv = Ok ts ->
  exists fos, apply_flagoptions (flag_option_list inv) ts = Ok fos.
Proof.
  unfold get_flagoption_list_typer, apply_flagoptions.
  destruct (get_dict_option_to_class_for_arg dir (cmd_name inv)) as [d|e] eqn:G; [|discriminate].
  cbn. apply dict_class_iff in G as (j & L & C & K).
  revert ts. induction (flag_option_list inv) as [|fo l IH]; intros ts H; cbn in H; [injection H as <-; exists []; reflexivity|].
  destruct fo as [n|n s]; cbn in H.
  - match type of H with (bind ?x _) = _ => destruct x as [ts'|] eqn:X; [|discriminate] end.
    cbn in H. injection H as <-. destruct (IH _ eq_refl) as [fos F]. cbn. rewrite F. cbn. eauto.
  - destruct (dict_get d n) as [t|] eqn:D; [|discriminate]. cbn in H.
    match type of H with (bind ?x _) = _ => destruct x as [ts'|] eqn:X; [|discriminate] end.
    cbn in H. injection H as <-. destruct (IH _ eq_refl) as [fos F]. apply K in D as (a & _ & ->).
    destruct a as [a|]; cbn [combine map_result fst snd apply_typer_to_flagoption typer_of assert_ bind].
    + rewrite apply_file. cbn. rewrite F. cbn. eauto.
    + cbn. rewrite F. cbn. eauto.
Qed.

Lemma typer_length dir inv ts : get_flagoption_list_typer dir inv = Ok ts ->
  length ts = length (flag_option_list inv).
Proof.
  unfold get_flagoption_list_typer.
  destruct (get_dict_option_to_class_for_arg dir (cmd_name inv)) as [d|e]; [|discriminate]. cbn.
  intros H. apply map_result_Forall2 in H. symmetry. eapply Forall2_len; exact H.
Qed.

(** ** Generators do not look at the option typers *)
Definition with_fot (ts : list typer) (i : io_info) : io_info :=
  mkIO ts (operand_list_typer i) (implicit_input i) (implicit_output i).
Definition parametric (g : generator) : Prop :=
  forall inv i ts, g inv (with_fot ts i) =
    match g inv i with Ok i' => Ok (with_fot ts i') | Raise e => Raise e end.

Ltac par :=
  intros inv i ts; destruct i as [fot ot ii io];
  repeat match goal with |- context [contains_one_of ?a ?b] => destruct (contains_one_of a b) end;
  repeat match goal with |- context [Nat.eqb ?a ?b] => destruct (Nat.eqb a b) end;
  repeat match goal with |- context [length (get_flag_option_list_filtered_with ?a ?b)] =>
    destruct (length (get_flag_option_list_filtered_with a b)) as [|[|?]] end;
  cbn; try reflexivity; destruct ot as [|t ot]; cbn; try reflexivity.

Lemma par_alt_bigram_aux_reduce : parametric io_alt_bigram_aux_reduce.
Proof. unfold io_alt_bigram_aux_reduce; par. Qed.
Lemma par_stdin_stdout : parametric io_stdin_stdout.
Proof. unfold io_stdin_stdout; par. Qed.
Lemma par_awk : parametric io_awk.
Proof. unfold io_awk; par. Qed.
Lemma par_cat : parametric io_cat.
Proof. unfold io_cat, if_no_operands_given_stdin_implicitly_used; par. Qed.
Lemma par_comm : parametric io_comm.
Proof. unfold io_comm; par. Qed.
Lemma par_sort : parametric io_sort.
Proof. unfold io_sort; par. Qed.
Lemma par_tr : parametric io_tr.
Proof. unfold io_tr; par. Qed.
Lemma par_diff : parametric io_diff.
Proof. unfold io_diff; par. Qed.
Lemma par_grep : parametric io_grep.
Proof. unfold io_grep; par. Qed.
Lemma par_rm : parametric io_rm.
Proof. unfold io_rm; par. Qed.
Lemma par_mv : parametric io_mv.
Proof. unfold io_mv; par. destruct ot as [|t2 ot]; reflexivity. Qed.
Lemma par_sed : parametric io_sed.
Proof. unfold io_sed; par. Qed.
Lemma par_seq : parametric io_seq.
Proof. unfold io_seq; par. Qed.
Lemma par_set_diff : parametric io_set_diff.
Proof. unfold io_set_diff; par. Qed.
Lemma par_tee : parametric io_tee.
Proof. unfold io_tee; par. Qed.
Lemma par_uniq : parametric io_uniq.
Proof. unfold io_uniq; par. Qed.
Lemma par_wc : parametric io_wc.
Proof. unfold io_wc; par. Qed.
Lemma par_xargs : parametric io_xargs.
Proof. unfold io_xargs; par. Qed.

Lemma all_parametric : Forall (fun p => parametric (snd p)) io_generator_classes.
Proof.
  unfold io_generator_classes.
  repeat (constructor; [cbn; eauto using par_alt_bigram_aux_reduce, par_stdin_stdout, par_awk,
    par_cat, par_comm, par_sort, par_tr, par_diff, par_grep, par_rm, par_mv, par_sed, par_seq,
    par_set_diff, par_tee, par_uniq, par_wc, par_xargs|]).
  constructor.
Qed.

Lemma dict_find_In' {V} (d : dict V) k v : dict_find d k = Some v -> In (k, v) d.
Proof.
  induction d as [|[k' v'] d IH]; cbn; [discriminate|].
  destruct (String.eqb_spec k k') as [->|]; [intros [= ->]; auto|auto].
Qed.

Lemma generator_parametric k g : dict_find io_generator_classes k = Some g -> parametric g.
Proof.
  intros H. apply dict_find_In' in H. pose proof all_parametric as F.
  rewrite Forall_forall in F. apply (F _ H).
Qed.

(** ** Decomposition of [with_io] *)
Definition blank (inv : invocation) : io_info := new_io_info [] (length (operand_list inv)).

Lemma with_io_iff dir inv c g :
  dict_find io_generator_classes (representation_of (cmd_name inv)) = Some g ->
  with_io dir inv c <->
  exists i, g inv (blank inv) = Ok i /\
    exists ops, apply_operands (operand_list inv) (operand_list_typer i) = Ok ops /\
    shape dir inv c ops /\ io_implicit_input c = implicit_input i /\ io_implicit_output c = implicit_output i.
Proof.
  intros G. unfold with_io, get_input_output_info, init_io_info, dict_get. rewrite G. cbn [bind].
  pose proof (generator_parametric _ _ G) as P. split.
  - intros (i & H & A).
    destruct (get_flagoption_list_typer dir inv) as [ts|] eqn:T; [|discriminate]. cbn [bind except_none] in H.
    specialize (P inv (blank inv) ts).
    change (with_fot ts (blank inv)) with (new_io_info ts (length (operand_list inv))) in P.
    rewrite P in H. destruct (g inv (blank inv)) as [i'|] eqn:E; [|discriminate].
    cbn in H. injection H as <-. exists i'. split; [reflexivity|].
    unfold apply_io_info in A. cbn [flagoption_list_typer operand_list_typer with_fot] in A.
    fold (apply_flagoptions (flag_option_list inv) ts) in A.
    fold (apply_operands (operand_list inv) (operand_list_typer i')) in A.
    destruct (apply_flagoptions (flag_option_list inv) ts) as [fos|] eqn:F; [|discriminate].
    destruct (apply_operands (operand_list inv) (operand_list_typer i')) as [ops|] eqn:O; [|discriminate].
    cbn in A. injection A as <-. exists ops. split; [reflexivity|]. cbn. split; [|auto].
    repeat split; cbn; auto. apply typer_applied. eauto.
  - intros (i & E & ops & O & (S1 & S2 & S3) & I1 & I2).
    apply typer_applied in S2 as (ts & T & F). rewrite T. cbn [bind].
    specialize (P inv (blank inv) ts).
    change (with_fot ts (blank inv)) with (new_io_info ts (length (operand_list inv))) in P.
    rewrite P, E. cbn [except_none]. eexists. split; [reflexivity|].
    unfold apply_io_info. cbn [flagoption_list_typer operand_list_typer with_fot].
    fold (apply_flagoptions (flag_option_list inv) ts).
    fold (apply_operands (operand_list inv) (operand_list_typer i)).
    rewrite F, O. cbn. destruct c; cbn in *; subst; reflexivity.
Qed.

Lemma info_none_iff dir inv : get_input_output_info dir inv = None <->
  dict_find io_generator_classes (representation_of (cmd_name inv)) = None \/
  (~ exists fos, options_classified dir inv fos) \/
  exists g e, dict_find io_generator_classes (representation_of (cmd_name inv)) = Some g /\
    g inv (blank inv) = Raise e.
Proof.
  unfold get_input_output_info, init_io_info, dict_get.
  destruct (dict_find io_generator_classes (representation_of (cmd_name inv))) as [g|] eqn:G; cbn [bind].
  2: { cbn. split; auto. }
  pose proof (generator_parametric _ _ G) as P.
  destruct (get_flagoption_list_typer dir inv) as [ts|] eqn:T; cbn [bind].
  - specialize (P inv (blank inv) ts).
    change (with_fot ts (blank inv)) with (new_io_info ts (length (operand_list inv))) in P.
    rewrite P. destruct (g inv (blank inv)) as [i|e] eqn:E; cbn.
    + split; [discriminate|]. intros [X|[X|(g' & e & X & Y)]].
      * discriminate.
      * exfalso. apply X. destruct (typer_always_applies _ _ _ T) as [fos F].
        exists fos. apply typer_applied. eauto.
      * congruence.
    + split; [|auto]. intros _. right. right. eauto.
  - cbn. split; [|auto]. intros _. right. left. intros [fos F]. apply typer_applied in F as (ts & F & _). congruence.
Qed.

(** ** Flags *)
Lemma contains_iff inv ns : contains_one_of inv ns = true <-> exists n, In n ns /\ uses inv n.
Proof.
  unfold contains_one_of, get_flag_option_list_filtered_with, uses. rewrite Nat.ltb_lt. split.
  - destruct (filter _ _) as [|fo l] eqn:E; cbn; [lia|]. intros _.
    assert (I : In fo (filter (fun fo => mem (fo_name fo) ns) (flag_option_list inv))) by (rewrite E; left; reflexivity).
    apply filter_In in I as [I M]. apply mem_In in M. eauto 6.
  - intros (n & I & fo & J & <-).
    assert (K : In fo (filter (fun fo => mem (fo_name fo) ns) (flag_option_list inv))).
    { apply filter_In. split; [exact J|]. now apply mem_In. }
    destruct (filter _ _); [destruct K|cbn; lia].
Qed.
Lemma contains_false_iff inv ns : contains_one_of inv ns = false <-> forall n, In n ns -> ~ uses inv n.
Proof.
  rewrite <- not_true_iff_false, contains_iff. firstorder.
Qed.
Lemma contains1 inv n : contains_one_of inv [n] = true <-> uses inv n.
Proof. rewrite contains_iff. cbn. split; [intros (m & [<-|[]] & H); exact H|eauto]. Qed.
Lemma contains1_false inv n : contains_one_of inv [n] = false <-> ~ uses inv n.
Proof. rewrite <- contains1. now rewrite not_true_iff_false. Qed.
Lemma contains2 inv n m : contains_one_of inv [n; m] = true <-> uses inv n \/ uses inv m.
Proof. rewrite contains_iff. cbn. split; [intros (k & [<-|[<-|[]]] & H); auto|intros [?|?]; eauto 6]. Qed.
Lemma contains2_false inv n m : contains_one_of inv [n; m] = false <-> ~ (uses inv n \/ uses inv m).
Proof. rewrite <- contains2. now rewrite not_true_iff_false. Qed.

Lemma filtered1 inv n : get_flag_option_list_filtered_with inv [n] = uses_of inv n.
Proof.
  unfold get_flag_option_list_filtered_with, uses_of. apply filter_ext. intros fo.
  unfold mem. cbn. now rewrite orb_false_r.
Qed.
Lemma uses_of_nil inv n : uses_of inv n = [] <-> ~ uses inv n.
Proof.
  unfold uses_of, uses. split.
  - intros E (fo & I & <-).
    assert (J : In fo (filter (fun fo' => String.eqb (fo_name fo') (fo_name fo)) (flag_option_list inv))).
    { apply filter_In. split; [exact I|]. apply String.eqb_refl. }
    rewrite E in J. destruct J.
  - intros N. destruct (filter _ _) as [|fo l] eqn:E; [reflexivity|]. exfalso. apply N.
    assert (I : In fo (filter (fun fo' => String.eqb (fo_name fo') n) (flag_option_list inv))) by (rewrite E; left; reflexivity).
    apply filter_In in I as [I M]. apply String.eqb_eq in M. eauto.
Qed.

(** ** Operand typers *)
Lemma in_stream : input_access STREAM_INPUT. Proof. right; left; reflexivity. Qed.
Lemma in_other : input_access OTHER_INPUT. Proof. right; right; right; right; reflexivity. Qed.
Lemma in_config : input_access CONFIG_INPUT. Proof. left; reflexivity. Qed.
Lemma out_stream : output_access STREAM_OUTPUT. Proof. left; reflexivity. Qed.
Lemma out_other : output_access OTHER_OUTPUT. Proof. right; reflexivity. Qed.

Lemma apply_streams inv : apply_operands (operand_list inv) (operand_list_typer (blank inv)) =
  Ok (map (in_file STREAM_INPUT) (operand_list inv)).
Proof. apply apply_operands_repeat. apply apply_in, in_stream. Qed.

Lemma apply_first t f o l : (forall s, apply_typer_to_arg s t = Ok (f s)) ->
  apply_operands (o :: l) (t :: repeat (FILESTD STREAM_INPUT) (length l)) =
  Ok (f o :: map (in_file STREAM_INPUT) l).
Proof.
  intros H. unfold apply_operands. cbn. rewrite H. cbn.
  pose proof (apply_operands_repeat _ _ l (apply_in _ in_stream)) as X. unfold apply_operands in X. rewrite X. reflexivity.
Qed.
