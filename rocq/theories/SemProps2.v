(** * Proofs about sed and xargs *)
From Coq Require Import Lia.
Require Import Verif.PyBase Verif.JsonData Verif.Parser Verif.Access Verif.IOInfo Verif.IOVars
  Verif.Transformers Verif.ParaTypes Verif.ParaGen Verif.MapperAgg Verif.SpecLists Verif.SpecIO Verif.SpecVars Verif.SpecPara
  Verif.ParserFacts Verif.ParaProps Verif.ShippedData Verif.P_Para Verif.SpecSem Verif.SemFacts Verif.SemRun Verif.SemProps Verif.SpecSem2.

(** ** Commands whose output does not depend on chance *)
Lemma plain_distributive B c s (Q : string -> Prop) f :
  (forall a, Q a -> forall b d, a = b +++ d -> Q b /\ Q d) ->
  (forall sd x, Q x -> B sd (v_cmd c) (map (wflag_of c s) (v_flags c)) (map (word_of c s) (v_ops c)) [x] = f x) ->
  (forall a b, Q (a +++ b) -> ends_line a -> f (a +++ b) = f a +++ f b) ->
  distributive B c s Q.
Proof.
  intros QC H A pieces sd NE HQ CU. cbn zeta.
  assert (QP : forall l, Q (joined l) -> forall x, In x l -> Q x).
  { clear -QC. induction l as [|y l IH]; [intros _ x []|]. intros HQ. cbn in HQ. destruct (QC _ HQ _ _ eq_refl) as (Q1 & Q2).
    intros x [<-|I]; auto. }
  split; [intros; now rewrite !H by eauto|]. rewrite H by exact HQ.
  replace (map _ pieces) with (map f pieces) by (apply map_ext_in; intros; now rewrite H by eauto).
  destruct CU as (_ & F). clear sd H. induction pieces as [|x l IH]; [now destruct NE|]. destruct l as [|y l].
  - cbn. now rewrite !append_nil.
  - change (removelast (x :: y :: l)) with (x :: removelast (y :: l)) in F. inversion F; subst.
    change (joined (x :: y :: l)) with (x +++ joined (y :: l)) in *. destruct (QC _ HQ _ _ eq_refl) as (Q1 & Q2).
    rewrite A by assumption. rewrite IH by (discriminate || assumption). reflexivity.
Qed.

(** ** sed *)
Definition cycle_local (o : sed_oracle) fl (sc : script) : Prop :=
  exists (I : string -> Prop) F, I "" /\ forall n final space hold, I hold ->
    exists hold', sed_cycle o fl n final sc space hold = (F space, hold', false) /\ I hold'.
Lemma cycle_no_set o fl sc : (forall a k, In (a, k) sc -> (forall n, a <> AtLine n) /\ a <> AtLast /\ k <> Quit /\ k <> LineNumber) ->
  (forall a k, In (a, k) sc -> ~ sets_hold k) ->
  exists F, forall n final space, sed_cycle o fl n final sc space "" = (F space, "", false).
Proof.
  intros H1 H2. induction sc as [|(a, k) sc IH].
  - exists (autoprint fl). reflexivity.
  - destruct IH as (F & IH); [intros a0 k0 J; apply (H1 a0 k0); now right|intros a0 k0 J; apply (H2 a0 k0); now right|].
    specialize (H1 a k (or_introl eq_refl)) as (A1 & A2 & K1 & K2). specialize (H2 a k (or_introl eq_refl)).
    assert (S : exists g, forall n final space, selected o fl a n final space = g space).
    { destruct a as [|m| |r]; [exists (fun _ => true); reflexivity|now destruct (A1 m)|contradiction|exists (sed_match o fl r); reflexivity]. }
    destruct S as (g & S). unfold sets_hold in H2.
    destruct k; try contradiction; try (exfalso; apply H2; cbn; tauto); cbn [sed_cycle].
    + exists (fun space => if g space then let '(space', replaced) := sed_subst o fl regex replacement flags space in
        (if replaced && has_char "p" flags then [Space space'] else []) ++ F space' else F space).
      intros n final space. rewrite S. destruct (g space); [|apply IH].
      destruct (sed_subst o fl regex replacement flags space) as (sp & rp). now rewrite IH.
    + exists (fun space => if g space then [Space space] ++ F space else F space). intros n final space. rewrite S.
      destruct (g space); now rewrite IH.
    + exists (fun space => if g space then [] else F space). intros n final space. rewrite S. destruct (g space); [reflexivity|apply IH].
    + exists (fun space => if g space then F "" else F space). intros n final space. rewrite S. destruct (g space); apply IH.
    + exists (fun space => if g space then F (space +++ String (sed_sep fl) "") else F space). intros n final space. rewrite S. destruct (g space); apply IH.
Qed.
Lemma cycle_no_use o fl sc : (forall a k, In (a, k) sc -> (forall n, a <> AtLine n) /\ a <> AtLast /\ k <> Quit /\ k <> LineNumber) ->
  (forall a k, In (a, k) sc -> ~ uses_hold k) ->
  exists F, forall n final space hold, exists hold', sed_cycle o fl n final sc space hold = (F space, hold', false).
Proof.
  intros H1 H2. induction sc as [|(a, k) sc IH].
  - exists (autoprint fl). intros n final space hold. now exists hold.
  - destruct IH as (F & IH); [intros a0 k0 J; apply (H1 a0 k0); now right|intros a0 k0 J; apply (H2 a0 k0); now right|].
    specialize (H1 a k (or_introl eq_refl)) as (A1 & A2 & K1 & K2). specialize (H2 a k (or_introl eq_refl)).
    assert (S : exists g, forall n final space, selected o fl a n final space = g space).
    { destruct a as [|m| |r]; [exists (fun _ => true); reflexivity|now destruct (A1 m)|contradiction|exists (sed_match o fl r); reflexivity]. }
    destruct S as (g & S). unfold uses_hold in H2.
    destruct k; try contradiction; try (exfalso; apply H2; cbn; tauto); cbn [sed_cycle].
    + exists (fun space => if g space then let '(space', replaced) := sed_subst o fl regex replacement flags space in
        (if replaced && has_char "p" flags then [Space space'] else []) ++ F space' else F space).
      intros n final space hold. rewrite S. destruct (g space); [|apply IH].
      destruct (sed_subst o fl regex replacement flags space) as (sp & rp). destruct (IH n final sp hold) as (h' & ->). now exists h'.
    + exists (fun space => if g space then [Space space] ++ F space else F space). intros n final space hold. rewrite S.
      destruct (IH n final space hold) as (h' & E). exists h'. destruct (g space); now rewrite E.
    + exists (fun space => if g space then [] else F space). intros n final space hold. rewrite S. destruct (g space); [now exists hold|apply IH].
    + exists F. intros n final space hold. rewrite S. destruct (g space); apply IH.
    + exists F. intros n final space hold. rewrite S. destruct (g space); apply IH.
Qed.
Lemma local_cycles o fl sc : line_local sc -> cycle_local o fl sc.
Proof.
  intros (H1 & [H2|H2]).
  - destruct (cycle_no_set o fl sc H1 H2) as (F & H). exists (fun h => h = ""), F. split; [reflexivity|]. intros n final space hold ->. exists "". auto.
  - destruct (cycle_no_use o fl sc H1 H2) as (F & H). exists (fun _ => True), F. split; [exact I|]. intros n final space hold _.
    destruct (H n final space hold) as (h' & E). exists h'. auto.
Qed.
Lemma ended_end sep a : is_ended sep (a +++ String sep "") = true.
Proof.
  induction a as [|x a IH]; cbn; [apply Ascii.eqb_refl|]. destruct (a +++ String sep "") eqn:E; [destruct a; discriminate|exact IH].
Qed.
Lemma ended_app sep a b : b <> "" -> is_ended sep (a +++ b) = is_ended sep b.
Proof.
  intros N. induction a as [|x a IH]; [reflexivity|]. cbn. destruct (a +++ b) eqn:E; [|exact IH].
  destruct a; cbn in E; congruence.
Qed.
Lemma records_nil sep s : records sep s = [] -> s = "".
Proof. destruct s as [|a s]; [reflexivity|]. cbn. destruct (Ascii.eqb a sep); [discriminate|]. destruct (records sep s); discriminate. Qed.
Lemma sed_lines_local o fl sc (I : string -> Prop) F :
  (forall n final space hold, I hold -> exists hold', sed_cycle o fl n final sc space hold = (F space, hold', false) /\ I hold') ->
  forall l n hold, I hold -> sed_lines o fl sc true n hold l = joined (map (fun x => written (sed_sep fl) true (F x)) l).
Proof.
  intros H. induction l as [|x l IH]; intros n hold Ih; [reflexivity|]. cbn [sed_lines map joined fold_right].
  destruct (H n (match l with [] => true | _ => false end) x hold Ih) as (h' & -> & Ih'). rewrite orb_true_r. f_equal. now apply IH.
Qed.
Lemma sed_lines_app o fl sc (I : string -> Prop) F ended :
  (forall n final space hold, I hold -> exists hold', sed_cycle o fl n final sc space hold = (F space, hold', false) /\ I hold') ->
  forall l' n n' hold hold', I hold -> I hold' -> sed_lines o fl sc ended n hold l' = sed_lines o fl sc ended n' hold' l'.
Proof.
  intros H. induction l' as [|x l IH]; intros n n' hold hold' Ih Ih'; [reflexivity|]. cbn [sed_lines].
  destruct (H n (match l with [] => true | _ => false end) x hold Ih) as (h1 & -> & I1).
  destruct (H n' (match l with [] => true | _ => false end) x hold' Ih') as (h2 & -> & I2). f_equal. now apply IH.
Qed.
Lemma sed_lines_cut o fl sc (I : string -> Prop) F ended l' :
  (forall n final space hold, I hold -> exists hold', sed_cycle o fl n final sc space hold = (F space, hold', false) /\ I hold') ->
  l' <> [] -> forall l n hold, I hold -> sed_lines o fl sc ended n hold (l ++ l') = sed_lines o fl sc true n hold l +++ sed_lines o fl sc ended n hold l'.
Proof.
  intros H NE. induction l as [|x l IH]; intros n hold Ih; [reflexivity|]. cbn [sed_lines app].
  destruct (H n (match l ++ l' with [] => true | _ => false end) x hold Ih) as (h1 & -> & I1).
  destruct (H n (match l with [] => true | _ => false end) x hold Ih) as (h2 & -> & I2).
  rewrite append_assoc. rewrite orb_true_r.
  replace (match l ++ l' with [] => true | _ => false end) with false by (destruct l; [destruct l'; [contradiction|reflexivity]|reflexivity]).
  cbn [negb orb]. f_equal. rewrite IH by exact I1. f_equal; eapply sed_lines_app; eauto.
Qed.
Lemma sed_app o fl sc a b : line_local sc -> given fl ["-z"] = false -> given fl ["--help"; "--version"] = false -> ends_line a ->
  sed_output o fl sc (a +++ b) = sed_output o fl sc a +++ sed_output o fl sc b.
Proof.
  intros L Z G EA. unfold sed_output. rewrite G. destruct (local_cycles o fl sc L) as (I & F & I0 & H).
  assert (SS : sed_sep fl = newline) by (unfold sed_sep; now rewrite Z). rewrite SS.
  rewrite records_app by exact EA.
  assert (E : is_ended newline a = true) by (destruct EA as [->|(t & ->)]; [reflexivity|apply ended_end]). rewrite E.
  destruct b as [|x b].
  - rewrite !append_nil. cbn [records sed_lines]. rewrite ?append_nil, app_nil_r, ?E. reflexivity.
  - rewrite ended_app by discriminate. eapply sed_lines_cut; eauto. intros N. apply records_nil in N. discriminate.
Qed.
Lemma sed_sound text inv p c v B o dir script_text ops sc :
  parse shipped_dir text = Ok inv -> cmd_name inv = "sed" -> offered shipped_dir inv p ->
  invocation_of inv c -> reads_one c v -> v_ops c = PArg script_text :: ops -> read_script script_text = Some sc -> line_local sc ->
  ~ uses_any inv ["-e"; "-f"; "--in-place"; "--debug"; "--posix"; "-z"; "--help"; "--version"] ->
  is_sed o B -> is_cat B ->
  parallel_ok B dir p c v (fun n => n <> 0) (fun _ => True).
Proof.
  intros PA C OF IN R OPS RS L U SB CB. apply concat_sound; auto.
  { eapply stateless_of; eauto. rewrite C. cbn; auto. }
  intros s. assert (CN : v_cmd c = "sed") by (destruct IN as (-> & _); exact C).
  assert (GU : forall l, incl l ["-e"; "-f"; "--in-place"; "--debug"; "--posix"; "-z"; "--help"; "--version"] ->
    given (map (wflag_of c s) (v_flags c)) l = false).
  { intros l I. apply (given_unused inv); [exact IN|]. eapply unused_sub; eauto. }
  apply plain_distributive with (f := sed_output o (map (wflag_of c s) (v_flags c)) sc); [auto| |].
  - intros sd x _. rewrite CN, OPS. cbn [map word_of]. apply SB; [|apply GU; intros y; cbn; tauto|exact RS].
    eapply parse_known; eauto; [rewrite C; left; vm_compute; reflexivity|vm_compute; reflexivity].
  - intros a b _ EA. apply sed_app; auto; apply GU; intros y; cbn; tauto.
Qed.

(** ** xargs *)
Lemma items_end b a : forall item, items_from item (a +++ String newline b) = items_from item (a +++ String newline "") ++ items b.
Proof.
  induction a as [|x a IH]; intros item.
  - cbn [String.append items_from]. change (is_blank newline) with true. cbv iota. cbn [items_from String.eqb]. now rewrite app_nil_r.
  - cbn [String.append items_from]. destruct (is_blank x); [|apply IH]. rewrite <- app_assoc. f_equal. apply IH.
Qed.
Lemma items_app a b : ends_line a -> items (a +++ b) = items a ++ items b.
Proof. intros [->|(t & ->)]; [reflexivity|]. rewrite append_assoc. apply items_end. Qed.
Lemma batches_one l : batches 0 0 l = map (fun x => [x]) l.
Proof. induction l as [|x l IH]; cbn; congruence. Qed.
Lemma joined_map_app {A} (f : A -> string) l l' : joined (map f (l ++ l')) = joined (map f l) +++ joined (map f l').
Proof. now rewrite map_app, joined_app. Qed.
Definition one_by_one (o : xargs_oracle) (fl : list wflag) (ops : list word) : Prop :=
  last_number fl ["-n"] = Some 0 \/ (last_number fl ["-n"] = Some 1 /\ (given fl ["-r"] = true \/ exec o ops [] = "")).
Lemma xargs_app o fl ops a b : one_by_one o fl ops -> ends_line a ->
  xargs_output o fl ops (a +++ b) = xargs_output o fl ops a +++ xargs_output o fl ops b.
Proof.
  intros [H|(H & H')] EA; unfold xargs_output; rewrite H; [reflexivity|].
  assert (X : forall x, joined (map (exec o ops) (xargs_batches fl x)) = joined (map (exec o ops) (map (fun x => [x]) (items x)))).
  { intros x. unfold xargs_batches. rewrite H. destruct (items x) as [|y l]; [|now rewrite batches_one].
    destruct H' as [-> | H']; [reflexivity|]. destruct (given fl ["-r"]); [reflexivity|]. cbn. now rewrite H'. }
  rewrite !X, items_app by exact EA. now rewrite map_app, joined_map_app.
Qed.
Lemma all_in_app p a b : all_in p (a +++ b) = all_in p a && all_in p b.
Proof. induction a as [|x a IH]; cbn; [reflexivity|]. rewrite IH. apply andb_assoc. Qed.
Lemma names_known inv c s names : invocation_of inv c -> Forall (fun fo => In (fo_name fo) names) (flag_option_list inv) ->
  known names (map (wflag_of c s) (v_flags c)).
Proof.
  intros IN F. unfold known. apply Forall_forall. intros f J. rewrite Forall_forall in F.
  assert (J' : In (wflag_name f) (map fo_name (flag_option_list inv))) by (rewrite <- (names_eq inv c s IN); now apply in_map).
  apply in_map_iff in J' as (fo & <- & J'). now apply F.
Qed.
Lemma xargs_sound inv p c v B o dir :
  cmd_name inv = "xargs" -> offered shipped_dir inv p ->
  Forall (fun fo => In (fo_name fo) ["-n"; "-r"; "-t"]) (flag_option_list inv) ->
  invocation_of inv c -> reads_one c v ->
  (forall s, one_by_one o (map (wflag_of c s) (v_flags c)) (map (word_of c s) (v_ops c))) ->
  is_xargs o B -> is_cat B ->
  parallel_ok B dir p c v (fun n => n <> 0) xargs_plain.
Proof.
  intros C OF F IN R O XB CB. apply concat_sound; auto.
  { eapply stateless_of; eauto. rewrite C. cbn; auto. }
  intros s. assert (CN : v_cmd c = "xargs") by (destruct IN as (-> & _); exact C).
  apply plain_distributive with (f := xargs_output o (map (wflag_of c s) (v_flags c)) (map (word_of c s) (v_ops c))).
  - intros a Q b d ->. unfold xargs_plain in *. rewrite all_in_app in Q. now apply andb_true_iff in Q.
  - intros sd x Q. rewrite CN. apply XB; [|exact Q]. now apply (names_known inv).
  - intros a b _ EA. now apply xargs_app.
Qed.
Definition echo_words (l : list string) : string := match l with [] => String newline "" | x :: l => x +++ joined (map (String " ") l) +++ String newline "" end.
Definition echo : xargs_oracle := mkXargs (fun _ => echo_words).
Lemma xargs_iff inv p c v dir :
  cmd_name inv = "xargs" -> offered shipped_dir inv p ->
  Forall (fun fo => In (fo_name fo) ["-n"; "-r"; "-t"]) (flag_option_list inv) ->
  invocation_of inv c -> reads_one c v -> tight c ->
  (forall B o, is_xargs o B -> is_cat B -> parallel_ok B dir p c v (fun n => n <> 0) xargs_plain) <->
  forall s, last_number (map (wflag_of c s) (v_flags c)) ["-n"] = Some 0 \/
            (last_number (map (wflag_of c s) (v_flags c)) ["-n"] = Some 1 /\ uses inv "-r").
Proof.
  intros C OF F IN R T. split.
  - intros H s.
    assert (S : In p (stateless SpecPara.concat)) by (eapply stateless_of; eauto; rewrite C; cbn; auto).
    set (B := fun (seed : nat) (cmd : string) fl (ops : list word) inputs =>
      if String.eqb cmd "cat" then joined inputs else xargs_output echo fl ops (joined inputs)).
    assert (XB : is_xargs echo B).
    { intros seed fl ops input _ _. unfold B. cbn [String.eqb Ascii.eqb Bool.eqb joined fold_right]. now rewrite append_nil. }
    assert (CB : is_cat B) by (intros seed ops inputs _; reflexivity).
    assert (EA : ends_line "a
") by (right; exists "a"; reflexivity).
    assert (CN : v_cmd c = "xargs") by (destruct IN as (-> & _); exact C).
    assert (KN := names_known inv c s _ IN F).
    pose proof (concat_complete B dir p c v _ R T S CB (H B echo XB CB) s 0 0 0 "a
" "b
" eq_refl EA) as X1. cbv zeta in X1.
    pose proof (concat_complete B dir p c v _ R T S CB (H B echo XB CB) s 0 0 0 "a
" "" eq_refl EA) as X2. cbv zeta in X2.
    rewrite CN, !XB in X1, X2 by (exact KN || reflexivity). unfold xargs_output, xargs_batches in X1, X2.
    set (fl := map (wflag_of c s) (v_flags c)) in *.
    destruct (last_number fl ["-n"]) as [[|[|n]]|] eqn:LN; [now left| | |].
    + right. split; [reflexivity|]. destruct (given fl ["-r"]) eqn:G.
      * apply (given_uses inv) in G; [|exact IN]. destruct G as (m & [<-|[]] & G). exact G.
      * exfalso. clear -X2. vm_compute in X2. discriminate X2.
    + exfalso. clear -X1. destruct n; vm_compute in X1; discriminate X1.
    + exfalso. clear -X1. vm_compute in X1; discriminate X1.
  - intros H B o XB CB. eapply xargs_sound; eauto. intros s. destruct (H s) as [E|(E & U)]; [now left|right].
    split; [exact E|left]. apply (given_uses inv); [exact IN|]. exists "-r". split; [now left|exact U].
Qed.

(** ** sed with line numbers *)
Definition copies (n : nat) (x : string) : string := unlines (repeat x n).
Lemma copies_app n m x : copies (n + m) x = copies n x +++ copies m x.
Proof. unfold copies, unlines. now rewrite repeat_app, terminated_app. Qed.
Lemma copies_lines n x : has_char newline x = false -> lines (copies n x) = repeat x n.
Proof. intros H. apply records_terminated. apply Forall_forall. intros y I. apply repeat_spec in I. now subst. Qed.
Lemma copies_ends n x : ends_line (copies n x).
Proof. apply (terminated_ends newline). Qed.
Lemma copies_ended n x : is_ended newline (copies n x) = true.
Proof. destruct (copies_ends n x) as [->|(t & ->)]; [reflexivity|apply ended_end]. Qed.
Lemma sed_repeat o fl sc x (out : nat -> list printout) m : forall n,
  (forall j final, n <= j -> j < n + m -> sed_cycle o fl j final sc x "" = (out j, "", false)) ->
  sed_lines o fl sc true n "" (repeat x m) = joined (map (fun j => written (sed_sep fl) true (out j)) (seq n m)).
Proof.
  induction m as [|m IH]; intros n H; [reflexivity|]. cbn [repeat sed_lines seq map joined fold_right].
  rewrite H by lia. rewrite orb_true_r. f_equal. apply IH. intros j final L1 L2. apply H; lia.
Qed.
Lemma append_inv_head a b c : a +++ b = a +++ c -> b = c.
Proof. induction a as [|x a IH]; cbn; [auto|]. intros E. injection E as E. auto. Qed.
Lemma joined_except (A D : string) n m k : k <= n -> n < k + m ->
  joined (map (fun j => if Nat.eqb j n then A else D) (seq k m)) =
  joined (repeat D (n - k)) +++ A +++ joined (repeat D (k + m - S n)).
Proof.
  revert k. induction m as [|m IH]; intros k L1 L2; [lia|]. cbn [seq map joined fold_right]. destruct (Nat.eqb_spec k n) as [->|N].
  - rewrite Nat.sub_diag. cbn. f_equal. replace (n + S m - S n) with m by lia.
    assert (X : forall i, n < i -> fold_right String.append "" (map (fun j => if Nat.eqb j n then A else D) (seq i m)) = joined (repeat D m)).
    { clear. induction m as [|m IH]; intros i L; [reflexivity|]. cbn. destruct (Nat.eqb_spec i n); [lia|]. f_equal. apply IH. lia. }
    apply X. lia.
  - unfold joined in IH. rewrite (IH (S k)) by lia. replace (n - k) with (S (n - S k)) by lia. cbn [repeat fold_right].
    unfold joined. cbn [repeat fold_right]. rewrite append_assoc. do 4 f_equal. f_equal. lia.
Qed.
Lemma joined_without (A D : string) n m k : n < k -> joined (map (fun j => if Nat.eqb j n then A else D) (seq k m)) = joined (repeat D m).
Proof. revert k. induction m as [|m IH]; intros k L; [reflexivity|]. cbn. destruct (Nat.eqb_spec k n); [lia|]. f_equal. apply IH. lia. Qed.
Lemma sed_copies o fl sc x m : given fl ["-z"] = false -> given fl ["--help"; "--version"] = false -> has_char newline x = false ->
  sed_output o fl sc (copies m x) = sed_lines o fl sc true 1 "" (repeat x m).
Proof.
  intros Z G H. unfold sed_output. rewrite G. assert (SS : sed_sep fl = newline) by (unfold sed_sep; now rewrite Z). rewrite SS.
  rewrite copies_ended. fold (lines (copies m x)). now rewrite copies_lines.
Qed.
Lemma at_line_differs o fl sc x n A D : given fl ["-z"] = false -> given fl ["--help"; "--version"] = false -> has_char newline x = false ->
  1 <= n ->
  (forall j final, sed_cycle o fl j final sc x "" = (if Nat.eqb j n then A else D, "", false)) ->
  written newline true A <> written newline true D ->
  sed_output o fl sc (copies n x +++ copies n x) <> sed_output o fl sc (copies n x) +++ sed_output o fl sc (copies n x).
Proof.
  intros Z G H L C NE E. rewrite <- copies_app, !sed_copies in E by assumption.
  rewrite !(sed_repeat o fl sc x (fun j => if Nat.eqb j n then A else D)) in E by (intros; apply C).
  assert (SS : sed_sep fl = newline) by (unfold sed_sep; now rewrite Z). rewrite SS in E.
  assert (X : forall k m, map (fun j => written newline true (if Nat.eqb j n then A else D)) (seq k m) =
    map (fun j => if Nat.eqb j n then written newline true A else written newline true D) (seq k m)).
  { intros. apply map_ext. intros j. destruct (Nat.eqb j n); reflexivity. }
  rewrite !X, seq_app, joined_map_app in E. apply append_inv_head in E.
  rewrite joined_without in E by lia. rewrite joined_except in E by lia.
  replace (1 + n - S n) with 0 in E by lia. cbn [repeat joined fold_right] in E.
  replace n with ((n - 1) + 1) in E at 1 by lia. rewrite repeat_app, joined_app in E. apply append_inv_head in E.
  cbn in E. rewrite !append_nil in E. now symmetry in E.
Qed.
Lemma sed_wrong inv p c v B o dir text t ops sc s a b :
  parse shipped_dir text = Ok inv -> cmd_name inv = "sed" -> In p (stateless SpecPara.concat) ->
  invocation_of inv c -> reads_one c v -> tight c -> v_ops c = PArg t :: ops -> read_script t = Some sc ->
  ~ uses_any inv ["-e"; "-f"; "--in-place"; "--debug"; "--posix"] -> is_sed o B -> is_cat B -> ends_line a ->
  let fl := map (wflag_of c s) (v_flags c) in
  sed_output o fl sc (a +++ b) <> sed_output o fl sc a +++ sed_output o fl sc b ->
  parallel_wrong B dir p c v (fun n => n <> 0) (fun _ => True).
Proof.
  intros PA C I IN R T OPS RS U SB CB EA fl NE.
  assert (CN : v_cmd c = "sed") by (destruct IN as (-> & _); exact C).
  assert (KN : known sed_names fl).
  { eapply parse_known; eauto; [rewrite C; left; vm_compute; reflexivity|vm_compute; reflexivity]. }
  assert (GU : given fl ["-e"; "-f"; "--in-place"; "--debug"; "--posix"] = false) by (now apply (given_unused inv)).
  apply (concat_wrong B dir p c v (fun _ => True) s a b); auto; fold fl; rewrite CN, OPS; cbn [map word_of].
  - intros sd. split; now rewrite !(SB _ fl t _ _ sc).
  - intros sd. now rewrite !(SB _ fl t _ _ sc).
Qed.
Definition script_elsewhere : list string := ["-e"; "-f"; "--in-place"; "--debug"; "--posix"].
Lemma written_length l : String.length (written newline true l) = list_sum (map (fun p => match p with Space s | Numeral s => S (String.length s) end) l).
Proof.
  assert (X : forall s t, String.length (s +++ String newline t) = S (String.length s + String.length t)) by (intros; rewrite append_length; cbn; lia).
  induction l as [|[s|s] l IH]; [reflexivity| |].
  - destruct l as [|p l]; [cbn; rewrite append_length; cbn; lia|]. change (written newline true (Space s :: p :: l)) with (s +++ String newline (written newline true (p :: l))).
    rewrite X, IH. reflexivity.
  - change (written newline true (Numeral s :: l)) with (s +++ String newline (written newline true l)). rewrite X, IH. reflexivity.
Qed.
Lemma append_inv_tail a b c : a +++ c = b +++ c -> a = b.
Proof.
  revert b. induction a as [|x a IH]; intros b E.
  - destruct b as [|y b]; [reflexivity|]. apply (f_equal String.length) in E. cbn in E. rewrite append_length in E. lia.
  - destruct b as [|y b]; [apply (f_equal String.length) in E; cbn in E; rewrite append_length in E; lia|]. cbn in E. injection E as -> E. f_equal. auto.
Qed.
Lemma at_line_wrong inv p c v B o dir text t ops n k s :
  parse shipped_dir text = Ok inv -> cmd_name inv = "sed" -> In p (stateless SpecPara.concat) ->
  invocation_of inv c -> reads_one c v -> tight c -> v_ops c = PArg t :: ops -> read_script t = Some [(AtLine n, k)] -> 1 <= n ->
  ~ uses_any inv (script_elsewhere ++ ["-z"; "--help"; "--version"]) -> is_sed o B -> is_cat B ->
  k = Print \/ (exists r w f x, k = Subst r w f /\ ~ uses inv "-n" /\ has_char "p" f = false /\ has_char newline x = false /\
                  fst (sed_subst o (map (wflag_of c s) (v_flags c)) r w f x) <> x) ->
  parallel_wrong B dir p c v (fun n => n <> 0) (fun _ => True).
Proof.
  intros PA C I IN R T OPS RS L U SB CB K. set (fl := map (wflag_of c s) (v_flags c)) in *.
  assert (GU : forall l, incl l (script_elsewhere ++ ["-z"; "--help"; "--version"]) -> given fl l = false).
  { intros l J. apply (given_unused inv); [exact IN|]. eapply unused_sub; eauto. }
  assert (Z : given fl ["-z"] = false) by (apply GU; intros y; cbn; tauto).
  assert (G : given fl ["--help"; "--version"] = false) by (apply GU; intros y; cbn; tauto).
  assert (U' : ~ uses_any inv script_elsewhere) by (eapply unused_sub; [exact U|]; intros y; cbn; tauto).
  destruct K as [->|(r & w & f & x & -> & N & P & H & D)].
  - apply (sed_wrong inv p c v B o dir text t ops _ s (copies n "") (copies n "") PA C I IN R T OPS RS U' SB CB (copies_ends n "")).
    fold fl. eapply (at_line_differs o fl _ "" n (Space "" :: autoprint fl "") (autoprint fl "")); auto.
    + intros j final. cbn. destruct (Nat.eqb j n); reflexivity.
    + intros E. apply (f_equal String.length) in E. rewrite !written_length in E. unfold autoprint in E. destruct (given fl ["-n"]); cbn in E; lia.
  - apply (sed_wrong inv p c v B o dir text t ops _ s (copies n x) (copies n x) PA C I IN R T OPS RS U' SB CB (copies_ends n x)).
    fold fl. destruct (sed_subst o fl r w f x) as (y & rp) eqn:E. cbn [fst] in D.
    assert (GN : given fl ["-n"] = false).
    { apply (given_unused inv); [exact IN|]. intros (m & [<-|[]] & M). contradiction. }
    eapply (at_line_differs o fl _ x n [Space y] [Space x]); auto.
    + intros j final. cbn. unfold autoprint. rewrite E, GN, P, andb_false_r. destruct (Nat.eqb j n); reflexivity.
    + cbn. intros F. apply append_inv_tail in F. contradiction.
Qed.
Lemma quit_lines o fl sc x n l : forall k, k <= n -> has_char newline x = false -> 
  (forall j final, exists out, sed_cycle o fl j final sc x "" = (out, "", Nat.eqb j n) /\ sed_cycle o fl j true sc x "" = (out, "", Nat.eqb j n)) ->
  sed_lines o fl sc true k "" (repeat x (S (n - k)) ++ l) = sed_lines o fl sc true k "" (repeat x (S (n - k))).
Proof.
  intros k L H C. remember (n - k) as d eqn:E. revert k L E. induction d as [|d IH]; intros k L E.
  - assert (k = n) by lia. subst k. cbn [repeat app sed_lines].
    destruct (C n (match l with [] => true | _ => false end)) as (out & -> & ->). rewrite Nat.eqb_refl, !orb_true_r. reflexivity.
  - replace (repeat x (S (S d))) with (x :: repeat x (S d)) by reflexivity. cbn [app sed_lines].
    destruct (C k (match repeat x (S d) ++ l with [] => true | _ => false end)) as (out & -> & E1).
    destruct (C k (match repeat x (S d) with [] => true | _ => false end)) as (out' & -> & E2).
    rewrite E2 in E1. injection E1 as ->. rewrite !orb_true_r. f_equal. destruct (Nat.eqb_spec k n); [lia|]. apply IH; lia.
Qed.
Lemma quit_wrong inv p c v B o dir text t ops r w f n :
  parse shipped_dir text = Ok inv -> cmd_name inv = "sed" -> In p (stateless SpecPara.concat) ->
  invocation_of inv c -> reads_one c v -> tight c -> v_ops c = PArg t :: ops ->
  read_script t = Some [(Always, Subst r w f); (AtLine n, Quit)] -> 1 <= n ->
  ~ uses_any inv (script_elsewhere ++ ["-z"; "--help"; "--version"; "-n"]) -> is_sed o B -> is_cat B ->
  parallel_wrong B dir p c v (fun n => n <> 0) (fun _ => True).
Proof.
  intros PA C I IN R T OPS RS L U SB CB. set (s := fun _ : Z => ""). set (fl := map (wflag_of c s) (v_flags c)) in *.
  assert (GU : forall l, incl l (script_elsewhere ++ ["-z"; "--help"; "--version"; "-n"]) -> given fl l = false).
  { intros l J. apply (given_unused inv); [exact IN|]. eapply unused_sub; eauto. }
  assert (Z : given fl ["-z"] = false) by (apply GU; intros y; cbn; tauto).
  assert (G : given fl ["--help"; "--version"] = false) by (apply GU; intros y; cbn; tauto).
  assert (GN : given fl ["-n"] = false) by (apply GU; intros y; cbn; tauto).
  assert (U' : ~ uses_any inv script_elsewhere) by (eapply unused_sub; [exact U|]; intros y; cbn; tauto).
  apply (sed_wrong inv p c v B o dir text t ops _ s (copies n "") (copies n "") PA C I IN R T OPS RS U' SB CB (copies_ends n "")).
  fold fl. rewrite <- copies_app, !sed_copies by auto. rewrite repeat_app.
  set (sc := [(Always, Subst r w f); (AtLine n, Quit)]).
  replace (repeat "" n) with (repeat "" (S (n - 1))) by (f_equal; lia).
  rewrite (quit_lines o fl sc "" n (repeat "" (S (n - 1))) 1); auto.
  - intros E. apply (f_equal String.length) in E. rewrite append_length in E.
    enough (X : 0 < String.length (sed_lines o fl sc true 1 "" (repeat "" (S (n - 1))))) by lia.
    cbn [repeat sed_lines]. unfold sc at 1. cbn [sed_cycle selected].
    destruct (sed_subst o fl r w f "") as (y & rp). unfold autoprint. rewrite GN, orb_true_r.
    assert (SS : sed_sep fl = newline) by (unfold sed_sep; now rewrite Z). rewrite SS.
    destruct (Nat.eqb 1 n); rewrite append_length, written_length; destruct (rp && has_char "p" f); cbn; lia.
  - intros j final. unfold sc. cbn [sed_cycle selected]. destruct (sed_subst o fl r w f "") as (y & rp).
    destruct (Nat.eqb j n); eexists; split; reflexivity.
Qed.
