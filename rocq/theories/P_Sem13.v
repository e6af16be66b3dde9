(** * C60, C68: commands that stop before the end of their input *)
From Coq Require Import Lia.
Require Import Verif.PyBase Verif.JsonData Verif.Parser Verif.Access Verif.IOInfo Verif.IOVars
  Verif.Transformers Verif.ParaTypes Verif.ParaGen Verif.MapperAgg Verif.SpecLists Verif.SpecIO Verif.SpecVars Verif.SpecPara
  Verif.ParserFacts Verif.ParaProps Verif.ShippedData Verif.P_Para Verif.SpecSem Verif.SemFacts Verif.SemRun Verif.SemProps Verif.SemSystem Verif.SpecSem2
  Verif.SemProps2 Verif.SpecSem4 Verif.SemProps4 Verif.SpecSem6 Verif.P_Sem6 Verif.SpecSem7 Verif.SemProps7 Verif.P_Sem7 Verif.PipeFacts Verif.SpecSem13 Verif.P_Sem Verif.P_Sem2.

(** ** Any command that treats its lines one by one until one of them makes it stop *)
Lemma until_app {A} (F : A -> string * bool) l m :
  until_stop F (l ++ m) = until_stop F l +++ (if existsb (fun x => snd (F x)) l then "" else until_stop F m).
Proof.
  induction l as [|x l IH]; [reflexivity|]. cbn [app until_stop existsb]. destruct (snd (F x)); cbn [orb]; [now rewrite append_nil|].
  now rewrite IH, append_assoc.
Qed.
Lemma until_silent {A} (F : A -> string * bool) l : (forall x, In x l -> fst (F x) = "") -> until_stop F l = "".
Proof.
  induction l as [|x l IH]; intros H; [reflexivity|]. cbn [until_stop]. rewrite (H x) by now left.
  destruct (snd (F x)); [reflexivity|]. apply IH. intros y I. apply H. now right.
Qed.
Lemma until_pieces {A} (F : A -> string * bool) (q : A -> Prop) l m :
  (forall x y, q x -> q y -> snd (F x) = true -> fst (F y) = "") -> Forall q l -> Forall q m ->
  until_stop F (l ++ m) = until_stop F l +++ until_stop F m.
Proof.
  intros H L M. rewrite until_app. f_equal. destruct (existsb _ l) eqn:E; [|reflexivity]. apply existsb_exists in E as (x & I & S).
  rewrite Forall_forall in L, M. symmetry. apply until_silent. intros y J. eauto.
Qed.
(** Concatenating is right exactly if a line that stops the command is met only if no line prints
    anything. *)
Theorem C68_stopping_iff : forall dir inv p c i B dir' F (q : string -> Prop),
  offered dir inv p -> p_aggregator p = SpecPara.concat -> reads_one c i -> tight c -> is_cat B ->
  (forall seed s, Forall q (lines (s i)) -> run B seed c s = until_stop (F s) (lines (s i))) -> (forall s x, F (put i x s) = F s) ->
  parallel_ok B dir' p c i (fun n => n <> 0) (fun x => Forall q (lines x)) <->
  forall s l l', one_line l -> one_line l' -> q l -> q l' -> snd (F s l) = true -> fst (F s l') = "".
Proof.
  intros dir inv p c i B dir' F q O A R T CB H HF.
  assert (AP : forall a b, ends_line a -> lines (a +++ b) = lines a ++ lines b) by (intros; now apply records_app).
  assert (E : forall s sd x, Forall q (lines x) -> run B sd c (put i x s) = until_stop (F s) (lines x)).
  { intros s sd x Q. assert (PI : put i x s i = x) by (unfold put; now rewrite Z.eqb_refl). rewrite H; rewrite PI; [now rewrite HF|exact Q]. }
  rewrite (C68_concat_iff dir inv p c i B (fun x => Forall q (lines x)) dir' O A R T CB).
  - split.
    + intros P s l l' N N' QL QL' S. specialize (P s 0 0 0 (unlines [l]) (unlines [l']) (unlines_ends _)). cbv beta in P.
      assert (L : forall x, one_line x -> lines (unlines [x]) = [x]) by (intros; apply records_terminated; repeat constructor; assumption).
      rewrite AP in P by apply unlines_ends. rewrite !L in P by assumption. cbn [app] in P.
      assert (Q2 : Forall q [l; l']) by (repeat constructor; assumption). specialize (P Q2).
      rewrite !E in P; rewrite ?AP by apply unlines_ends; rewrite ?L by assumption; try (repeat constructor; assumption).
      rewrite AP in P by apply unlines_ends. rewrite !L in P by assumption. cbn [app until_stop] in P. rewrite S in P.
      destruct (snd (F s l')); rewrite ?append_nil in P; apply (f_equal String.length) in P; rewrite append_length in P;
        destruct (fst (F s l')); [reflexivity|cbn in P; lia|reflexivity|cbn in P; lia].
    + intros C s seed seed1 seed2 a b EA Q. cbv beta in Q. assert (Q' := Q). rewrite AP in Q' by exact EA. apply Forall_app in Q' as (QA & QB).
      rewrite !E by assumption. rewrite AP by exact EA.
      apply (until_pieces (F s) (fun l => one_line l /\ q l)).
      * intros x y (? & ?) (? & ?). now apply C.
      * apply Forall_forall. intros x I. split; [|now apply (proj1 (Forall_forall _ _) QA)]. pose proof (records_clean newline a) as RC. now apply (proj1 (Forall_forall _ _) RC).
      * apply Forall_forall. intros x I. split; [|now apply (proj1 (Forall_forall _ _) QB)]. pose proof (records_clean newline b) as RC. now apply (proj1 (Forall_forall _ _) RC).
  - intros a b EA Q. rewrite AP in Q by exact EA. now apply Forall_app in Q.
Qed.
Print Assumptions C68_stopping_iff.

(** ** xargs: reading *)
Definition plain_b (x : string) : bool := negb (has_char newline x) && negb (has_char nul x).
Lemma plain_iff x : plain x <-> plain_b x = true.
Proof. unfold plain, plain_b. rewrite andb_true_iff, !negb_true_iff. reflexivity. Qed.
Lemma plain_add i a : (forall x, i = Some x -> plain x) -> Ascii.eqb a newline = false -> Ascii.eqb a nul = false ->
  forall x, add i a = Some x -> plain x.
Proof.
  intros P N Z x E. unfold add in E. injection E as <-. destruct i as [y|].
  - destruct (P y eq_refl) as (P1 & P2). split; rewrite has_char_app; cbn [has_char]; rewrite ?P1, ?P2; cbn [orb]; rewrite Ascii.eqb_sym, ?N, ?Z; reflexivity.
  - split; cbn [has_char]; rewrite Ascii.eqb_sym, ?N, ?Z; reflexivity.
Qed.
Lemma plain_some i : (forall x, i = Some x -> plain x) -> forall x, Some (match i with None => "" | Some y => y end) = Some x -> plain x.
Proof. intros P x [= <-]. destruct i; [now apply P|now split]. Qed.
Lemma plain_emit i e r l : (forall x, i = Some x -> plain x) -> (forall m, r = Some m -> Forall plain (map fst m)) -> emit i e r = Some l -> Forall plain (map fst l).
Proof.
  intros P R E. destruct i as [x|]; cbn in E; [|auto]. destruct r as [m|]; [|discriminate]. injection E as <-. cbn. constructor; [now apply P|now apply R].
Qed.
(** Newlines are not protected, so no item contains one. *)
Lemma read_plain bl s : forall item st prev l, lines_unquoted st s = true -> has_char nul s = false -> (forall x, item = Some x -> plain x) ->
  read bl item st prev s = Some l -> Forall plain (map fst l).
Proof.
  assert (NO : forall x, None = Some x -> plain x) by discriminate.
  induction s as [|x s IH]; intros item st prev l U Z P E; cbn [read lines_unquoted has_char] in *.
  { destruct st; try discriminate; (eapply plain_emit; [exact P| |exact E]); intros m [= <-]; constructor. }
  apply orb_false_iff in Z as (Z1 & Z2). rewrite Ascii.eqb_sym in Z1.
  destruct st.
  - destruct (Ascii.eqb x "\") eqn:EB.
    { apply Ascii.eqb_eq in EB. subst x. change (white_char "\") with false in E. rewrite andb_false_r in E. cbn [Ascii.eqb Bool.eqb] in E.
      change (blank_char "\") with false in E. rewrite andb_false_r in E. eapply IH; [exact U|exact Z2| |exact E]. now apply plain_some. }
    destruct (quote_char x) eqn:EQ.
    { assert (X : white_char x = false /\ Ascii.eqb x newline = false /\ blank_char x = false).
      { unfold quote_char in EQ. cbn [existsb] in EQ. apply orb_prop in EQ as [EQ|EQ]; [|apply orb_prop in EQ as [EQ|EQ]; [|discriminate EQ]];
          apply Ascii.eqb_eq in EQ; subst x; repeat split. }
      destruct X as (X1 & X2 & X3). rewrite X1, X2, X3, !andb_false_r in E. eapply IH; [exact U|exact Z2| |exact E]. now apply plain_some. }
    destruct (_ && white_char x); [eapply IH; [exact U|exact Z2|exact NO|exact E]|].
    destruct (Ascii.eqb x newline) eqn:EN; [eapply plain_emit; [exact P| |exact E]; intros m R; eapply IH; [exact U|exact Z2|exact NO|exact R]|].
    destruct (bl && _); [eapply plain_emit; [exact P| |exact E]; intros m R; eapply IH; [exact U|exact Z2|exact NO|exact R]|]. eapply IH; [exact U|exact Z2| |exact E]. now apply plain_add.
  - apply andb_prop in U as [U1 U2]. apply negb_true_iff in U1. rewrite U1 in E.
    destruct (Ascii.eqb x q); (eapply IH; [exact U2|exact Z2| |exact E]); [now apply plain_some|now apply plain_add].
  - apply andb_prop in U as [U1 U2]. apply negb_true_iff in U1. eapply IH; [exact U2|exact Z2| |exact E]. now apply plain_add.
Qed.
Lemma records_nul d x : has_char nul x = false -> Forall (fun r => has_char nul r = false) (records d x).
Proof.
  induction x as [|a x IH]; intros H; [constructor|]. cbn [has_char] in H. apply orb_false_iff in H as (H1 & H2). specialize (IH H2). cbn [records].
  destruct (Ascii.eqb a d); [constructor; [reflexivity|exact IH]|]. destruct (records d x) as [|r rs].
  - constructor; [cbn [has_char]; now rewrite H1|constructor].
  - apply Forall_cons_iff in IH as (R1 & R2). constructor; [cbn [has_char]; now rewrite H1|exact R2].
Qed.
Lemma items_plain o fl x l : (separator o fl = None \/ separator o fl = Some newline) -> xargs_input o fl x -> read_items o fl x = Some l -> Forall plain (map fst l).
Proof.
  intros S U R. unfold xargs_input in U. unfold read_items in R. destruct S as [S|S]; rewrite S in R, U.
  - destruct U as ((U & N) & _). eapply read_plain; eauto. discriminate.
  - assert (N : has_char nul x = false) by exact U. injection R as <-. rewrite map_map, map_id. apply Forall_forall. intros r I. split.
    + pose proof (records_clean newline x) as RC. now apply (proj1 (Forall_forall _ _) RC).
    + now apply (proj1 (Forall_forall _ _) (records_nul newline x N)).
Qed.

(** ** Writing an item: any character after a backslash, and two quotes at the end *)
Fixpoint escaped (x : string) : string := match x with "" => "''" | String a x' => String "\" (String a (escaped x')) end.
Definition texted (i : option string) : string := match i with None => "" | Some y => y end.
Lemma read_escaped bl x : forall i prev rest,
  read bl i Outside prev (escaped x +++ rest) = read bl (Some (texted i +++ x)) Outside "'" rest.
Proof.
  induction x as [|a x IH]; intros i prev rest; cbn [escaped String.append].
  - destruct i as [y|]; destruct bl; cbn [read andb white_char blank_char quote_char existsb]; cbn; rewrite ?append_nil; reflexivity.
  - transitivity (read bl (Some (texted i)) Escaped "\" (String a (escaped x +++ rest))).
    { destruct i as [y|]; destruct bl; reflexivity. }
    cbn [read]. unfold add. rewrite IH. cbn [texted]. rewrite append_assoc. reflexivity.
Qed.
Lemma unquoted_escaped x rest : has_char newline x = false -> lines_unquoted Outside (escaped x +++ rest) = lines_unquoted Outside rest.
Proof.
  induction x as [|a x IH]; intros N; [reflexivity|]. cbn [has_char] in N. apply orb_false_iff in N as (N1 & N2). rewrite Ascii.eqb_sym in N1.
  change (lines_unquoted Outside (escaped (String a x) +++ rest)) with (negb (Ascii.eqb a newline) && lines_unquoted Outside (escaped x +++ rest)).
  rewrite N1. cbn [negb andb]. now apply IH.
Qed.
Lemma has_escaped ch x : ch <> "\"%char -> ch <> "'"%char -> has_char ch x = false -> has_char ch (escaped x) = false.
Proof.
  intros A B. apply Ascii.eqb_neq in A, B. induction x as [|a x IH]; intros N; cbn [escaped has_char] in *; [now rewrite B|].
  apply orb_false_iff in N as (N1 & N2). rewrite A, N1. auto.
Qed.
(** A line of items *)
Fixpoint spelled (b : list string) : string :=
  match b with [] => "" | [x] => escaped x | x :: b' => escaped x +++ String " " (spelled b') end.
Fixpoint last_ends (b : list string) : list (string * bool) :=
  match b with [] => [] | [x] => [(x, true)] | x :: b' => (x, false) :: last_ends b' end.
Lemma read_spelled b : forall prev rest, b <> [] -> forall r, read true None Outside newline rest = Some r ->
  read true None Outside prev (spelled b +++ String newline rest) = Some (last_ends b ++ r).
Proof.
  induction b as [|x [|y b] IH]; intros prev rest N r R; [easy| |].
  - cbn [spelled last_ends]. rewrite read_escaped. cbn [texted]. change ("" +++ x) with x.
    transitivity (emit (Some x) true (read true None Outside newline rest)); [reflexivity|]. now rewrite R.
  - change (spelled (x :: y :: b)) with (escaped x +++ String " " (spelled (y :: b))). rewrite append_assoc, read_escaped. cbn [texted]. change ("" +++ x) with x.
    cbn [String.append]. transitivity (emit (Some x) false (read true None Outside " " (spelled (y :: b) +++ String newline rest))); [reflexivity|].
    rewrite (IH " "%char rest ltac:(discriminate) r R). reflexivity.
Qed.
Lemma read_line_one x prev rest r : read false None Outside newline rest = Some r ->
  read false None Outside prev (escaped x +++ String newline rest) = Some ((x, true) :: r).
Proof.
  intros R. rewrite read_escaped. cbn [texted]. change ("" +++ x) with x.
  transitivity (emit (Some x) true (read false None Outside newline rest)); [reflexivity|]. now rewrite R.
Qed.
Lemma spelled_clean ch b : ch <> "\"%char -> ch <> "'"%char -> ch <> " "%char -> Forall (fun x => has_char ch x = false) b -> has_char ch (spelled b) = false.
Proof.
  intros A1 A2 A3 F. induction F as [|x b P F IH]; [reflexivity|]. destruct b as [|y b]; [now apply has_escaped|].
  change (spelled (x :: y :: b)) with (escaped x +++ String " " (spelled (y :: b))). rewrite has_char_app, has_escaped by assumption. cbn [has_char orb].
  apply Ascii.eqb_neq in A3. rewrite A3. exact IH.
Qed.
Lemma spelled_unquoted b rest : Forall (fun x => has_char newline x = false) b -> lines_unquoted Outside (spelled b +++ rest) = lines_unquoted Outside rest.
Proof.
  induction 1 as [|x b P F IH]; [reflexivity|]. destruct b as [|y b]; [now apply unquoted_escaped|].
  change (spelled (x :: y :: b)) with (escaped x +++ String " " (spelled (y :: b))). rewrite append_assoc, unquoted_escaped by exact P. cbn [String.append].
  exact IH.
Qed.
Lemma last_ends_closed b x e l' : last_ends b = l' ++ [(x, e)] -> e = true.
Proof.
  revert l'. induction b as [|y [|z b] IH]; intros l' E.
  - now destruct l'.
  - destruct l' as [|? [|]]; cbn in E; congruence.
  - change (last_ends (y :: z :: b)) with ((y, false) :: last_ends (z :: b)) in E. destruct l' as [|u l']; [|injection E as _ E; eauto].
    cbn [app] in E. injection E as _ _ E. exfalso. destruct b; discriminate E.
Qed.
Lemma line_batches_ends b : b <> [] -> line_batches 0 0 (last_ends b) = [b].
Proof.
  induction b as [|y [|z b] IH]; intros N; [easy|reflexivity|]. change (last_ends (y :: z :: b)) with ((y, false) :: last_ends (z :: b)).
  cbn [line_batches]. rewrite IH by discriminate. reflexivity.
Qed.

(** ** xargs: lists of arguments *)
Lemma lists_cases w fl : one_kind fl -> xargs_safe (works w) fl -> bad_number fl = false ->
  (separator (works w) fl = None \/ separator (works w) fl = Some newline) /\
  ((forall l, argument_lists fl l = map (fun x => [x]) (map fst l)) \/
   given fl ["-L"] = true /\ given fl ["-I"] = false /\ forall l, argument_lists fl l = line_batches 0 0 l).
Proof.
  intros K (_ & S) BN. destruct S as [S|(SE & S)]; [congruence|]. split; [exact SE|]. unfold argument_lists.
  destruct (given fl ["-I"]) eqn:GI.
  { left. destruct (last_some fl "-I" K) as (t & -> & _); [cbn; auto|exact GI|]. reflexivity. }
  destruct S as [S|(R & S)]; [discriminate S|]. destruct (last_none fl "-I" GI) as (_ & ->). rewrite R.
  unfold grouped, bad_number in *. destruct S as [S|S]; rewrite S in *.
  - left. intros [|y l]; [reflexivity|]. destruct (last_number fl ["-L"]) as [[|]|]; [discriminate BN| |]; apply batches_one.
  - right. assert (GL : given fl ["-L"] = true).
    { destruct (given fl ["-L"]) eqn:E; [reflexivity|]. apply last_none in E as (E & _). rewrite E in S. discriminate S. }
    split; [exact GL|]. split; [reflexivity|]. destruct K as (_ & K & _). assert (GN := K "-L" "-n" ltac:(cbn; auto) ltac:(cbn; auto) ltac:(discriminate) GL).
    apply last_none in GN as (-> & _). intros [|]; reflexivity.
Qed.
Lemma line_batches_in l b : In b (line_batches 0 0 l) -> b <> [] /\ forall x, In x b -> In x (map fst l).
Proof.
  revert b. induction l as [|[x e] l IH]; intros b I; [destruct I|]. cbn [line_batches] in I. destruct e.
  - destruct I as [<-|I]; [split; [discriminate|]; intros y [<-|[]]; now left|]. destruct (IH b I) as (N & H). split; [exact N|]. intros y J. right. now apply H.
  - destruct (line_batches 0 0 l) as [|b' bs] eqn:E.
    + destruct I as [<-|[]]. split; [discriminate|]. intros y [<-|[]]. now left.
    + destruct I as [<-|I].
      * split; [discriminate|]. intros y [<-|J]; [now left|]. right. now apply (IH b' (or_introl eq_refl)).
      * destruct (IH b (or_intror I)) as (N & H). split; [exact N|]. intros y J. right. now apply H.
Qed.
Lemma line_batches_true rs : line_batches 0 0 (map (fun r => (r, true)) rs) = map (fun x => [x]) rs.
Proof. induction rs as [|r rs IH]; [reflexivity|]. cbn [map line_batches]. now rewrite IH. Qed.
Lemma lists_possible w fl x l b : one_kind fl -> xargs_safe (works w) fl -> bad_number fl = false -> xargs_input (works w) fl x ->
  read_items (works w) fl x = Some l -> In b (argument_lists fl l) -> possible (works w) fl b.
Proof.
  intros K S BN Q R I. destruct (lists_cases w fl K S BN) as (SE & C). pose proof (items_plain _ _ _ _ SE Q R) as P. rewrite Forall_forall in P.
  destruct C as [C|(GL & GI & C)]; rewrite C in I.
  - apply in_map_iff in I as (y & <- & I). split; [constructor; [now apply P|constructor]|now left].
  - destruct (line_batches_in l b I) as (N & H). split; [apply Forall_forall; auto|]. destruct SE as [SE|SE]; [right; auto|left].
    unfold read_items in R. rewrite SE in R. injection R as <-. rewrite line_batches_true in I. apply in_map_iff in I as (y & <- & _). reflexivity.
Qed.
Lemma lists_app w fl l m : one_kind fl -> xargs_safe (works w) fl -> bad_number fl = false -> (given fl ["-L"] = true -> given fl ["-I"] = false -> closed_list l) ->
  argument_lists fl (l ++ m) = argument_lists fl l ++ argument_lists fl m.
Proof.
  intros K S BN CL. destruct (lists_cases w fl K S BN) as (_ & [C|(GL & GI & C)]); rewrite !C; [now rewrite !map_app|]. apply line_batches_app. now apply CL.
Qed.
Lemma input_join o fl a b : ends_line a -> xargs_input o fl a -> xargs_input o fl b -> xargs_input o fl (a +++ b).
Proof.
  unfold xargs_input, no_null, unquoted_lines. intros EA HA HB. destruct (separator o fl); [rewrite has_char_app; now rewrite HA, HB|].
  destruct HA as ((U & N) & L), HB as ((U' & N') & L'). split; [split|].
  - destruct EA as [->|(t & ->)]; [exact U'|]. rewrite append_assoc. cbn [String.append]. rewrite unquoted_app. now rewrite U, U'.
  - rewrite has_char_app. now rewrite N, N'.
  - intros G. assert (E : lines (a +++ b) = lines a ++ lines b) by (apply records_app; exact EA). rewrite E. apply Forall_app. auto.
Qed.
(** For every possible list of arguments there is an input that makes xargs use just this one. *)
Lemma lists_made w fl b : one_kind fl -> xargs_safe (works w) fl -> bad_number fl = false -> possible (works w) fl b ->
  exists x l, ends_line x /\ xargs_input (works w) fl x /\ read_items (works w) fl x = Some l /\ argument_lists fl l = [b].
Proof.
  intros K S BN (P & H). destruct (lists_cases w fl K S BN) as (SE & C).
  assert (P1 : Forall (fun x => has_char newline x = false) b) by (eapply Forall_impl; [|exact P]; intros y Y; apply Y).
  assert (P2 : Forall (fun x => has_char nul x = false) b) by (eapply Forall_impl; [|exact P]; intros y Y; apply Y).
  destruct SE as [SE|SE].
  - exists (spelled b +++ String newline "").
    assert (NB : b <> []) by (destruct H as [H|(H & _)]; [intros ->; discriminate H|exact H]).
    assert (CL : has_char newline (spelled b) = false) by (apply spelled_clean; try discriminate; exact P1).
    assert (RD : read true None Outside newline (spelled b +++ String newline "") = Some (last_ends b)).
    { rewrite (read_spelled b newline "" NB [] eq_refl). now rewrite app_nil_r. }
    assert (IN : xargs_input (works w) fl (spelled b +++ String newline "")).
    { unfold xargs_input. rewrite SE. split; [split|].
      - rewrite spelled_unquoted by exact P1. reflexivity.
      - rewrite has_char_app, spelled_clean; try discriminate; [reflexivity|exact P2].
      - intros _. assert (L : lines (spelled b +++ String newline "") = [spelled b]) by (unfold lines; now rewrite records_terminated_one). rewrite L. constructor; [|constructor].
        unfold complete_line. rewrite RD. intros y e l' E. eapply last_ends_closed; exact E. }
    destruct (given fl ["-I"]) eqn:GI.
    + assert (ONE : exists y, b = [y]).
      { destruct H as [H|(_ & H & _)]; [destruct b as [|y [|]]; try discriminate H; eauto|].
        destruct K as (_ & K & _). rewrite (K "-L" "-I" ltac:(cbn; auto) ltac:(cbn; auto) ltac:(discriminate) H) in GI. discriminate GI. }
      destruct ONE as (y & ->). exists [(y, true)]. split; [right; eauto|]. split; [exact IN|]. split.
      * unfold read_items. rewrite SE, GI. cbn [negb spelled]. now rewrite (read_line_one y newline "" [] eq_refl).
      * destruct C as [C|(_ & C & _)]; [now rewrite C|discriminate C].
    + exists (last_ends b). split; [right; eauto|]. split; [exact IN|]. split; [unfold read_items; rewrite SE, GI; exact RD|].
      destruct C as [C|(_ & _ & C)]; rewrite C; [|now apply line_batches_ends].
      assert (ONE : exists y, b = [y]); [|destruct ONE as (y & ->); reflexivity].
      destruct H as [H|(_ & H & _)]; [destruct b as [|y [|]]; try discriminate H; eauto|].
      exfalso. destruct S as (_ & [S|(_ & [S|(R & [S|S])])]); try congruence.
      * destruct K as (_ & K & _). assert (G := K "-L" "-n" ltac:(cbn; auto) ltac:(cbn; auto) ltac:(discriminate) H). apply last_none in G as (G & _). congruence.
      * specialize (C [("a", false); ("b", true)]). unfold argument_lists in C. destruct (last_none fl "-I" GI) as (_ & E). rewrite E in C. unfold grouped in C.
        destruct K as (_ & K & _). assert (G := K "-L" "-n" ltac:(cbn; auto) ltac:(cbn; auto) ltac:(discriminate) H). apply last_none in G as (G & _). rewrite G, S in C. discriminate C.
  - assert (ONE : exists y, b = [y]) by (destruct H as [H|(_ & _ & H)]; [destruct b as [|y [|]]; try discriminate H; eauto|congruence]).
    destruct ONE as (y & ->). inversion P1 as [|? ? N _]; inversion P2 as [|? ? Z _]; subst. exists (y +++ String newline ""), [(y, true)]. split; [right; eauto|].
    split; [unfold xargs_input; rewrite SE; unfold no_null; rewrite has_char_app; now rewrite Z|]. split; [unfold read_items; rewrite SE; now rewrite records_terminated_one|].
    destruct C as [C|(_ & _ & C)]; now rewrite C.
Qed.

(** ** xargs *)
(** Without commands that stop it, this is xargs as before. *)
Theorem C60_never_stops : forall w B,
  (forall ops b, stops_appended w ops b = false) -> (forall ops r x, stops_replaced w ops r x = false) ->
  is_xargs_stopping w B <-> is_xargs_full (works w) B.
Proof.
  intros w B A R.
  assert (E : forall fl ops l, xargs_until w fl ops l = xargs_prints (works w) fl ops l).
  { intros fl ops l. unfold xargs_until, xargs_prints, argument_lists. destruct (given fl ["--help"; "--version"]); [reflexivity|]. destruct (bad_number fl); [reflexivity|].
    assert (U : forall A (F : A -> string * bool) (m : list A), (forall x, snd (F x) = false) -> until_stop F m = joined (map (fun x => fst (F x)) m)).
    { intros A' F m H. induction m as [|x m IH]; [reflexivity|]. cbn [until_stop map joined fold_right]. rewrite H, IH. reflexivity. }
    rewrite U by (intros b; unfold outcome; destruct (last_text fl ["-I"]), b as [|? []]; cbn; rewrite ?A, ?R; reflexivity).
    unfold outcome. destruct (last_text fl ["-I"]) as [r|]; [now rewrite !map_map|].
    destruct l as [|y l]; [destruct (given fl ["-r"]); cbn; rewrite ?append_nil; reflexivity|]. f_equal. }
  split; intros H seed fl ops input l K O I N; [rewrite <- E|rewrite E]; now apply H.
Qed.
Print Assumptions C60_never_stops.
Lemma stops_run inv c v B w : cmd_name inv = "xargs" -> Forall (fun fo => In (fo_name fo) xargs_names) (flag_option_list inv) ->
  invocation_of inv c -> reads_one c v -> is_xargs_stopping w B ->
  (forall s, one_kind (map (wflag_of c s) (v_flags c)) /\ xargs_safe (works w) (map (wflag_of c s) (v_flags c)) /\ bad_number (map (wflag_of c s) (v_flags c)) = false) ->
  forall s sd x l, xargs_input (works w) (map (wflag_of c s) (v_flags c)) x -> read_items (works w) (map (wflag_of c s) (v_flags c)) x = Some l ->
    run B sd c (put v x s) = until_stop (outcome w (map (wflag_of c s) (v_flags c)) (map (word_of c s) (v_ops c))) (argument_lists (map (wflag_of c s) (v_flags c)) l).
Proof.
  intros C F IN R XB KS s sd x l H E. rewrite (put_run B _ c v s _ R). destruct IN as (CN & IN). rewrite CN, C.
  destruct (KS s) as (K & S & BN). rewrite (XB sd _ _ x l); auto.
  - unfold xargs_until. destruct S as (-> & _). now rewrite BN.
  - apply (names_known inv c s _ (conj CN IN) F).
  - now apply (input_read (works w) (map (wflag_of c s) (v_flags c))).
Qed.
(** The safe uses of xargs are right for a system exactly if a command makes xargs stop only if no
    command prints anything. *)
Theorem C60_stops_iff : forall inv p c v B w (Q : string -> Prop) dir,
  cmd_name inv = "xargs" -> offered shipped_dir inv p ->
  Forall (fun fo => In (fo_name fo) xargs_names) (flag_option_list inv) ->
  invocation_of inv c -> reads_one c v -> tight c ->
  let fl s := map (wflag_of c s) (v_flags c) in let ops s := map (word_of c s) (v_ops c) in
  (forall s, one_kind (fl s) /\ xargs_safe (works w) (fl s) /\ bad_number (fl s) = false) ->
  (forall s x, Q x <-> xargs_input (works w) (fl s) x) ->
  is_xargs_stopping w B -> is_cat B ->
  parallel_ok B dir p c v (fun n => n <> 0) Q <->
  forall s b b', possible (works w) (fl s) b -> possible (works w) (fl s) b' ->
    snd (outcome w (fl s) (ops s) b) = true -> fst (outcome w (fl s) (ops s) b') = "".
Proof.
  intros inv p c v B w Q dir C OF F IN R T fl ops KS QI XB CB. assert (A := concat_of inv p C OF).
  assert (RUN : forall s sd x l, xargs_input (works w) (fl s) x -> read_items (works w) (fl s) x = Some l ->
    run B sd c (put v x s) = until_stop (outcome w (fl s) (ops s)) (argument_lists (fl s) l)) by (eapply stops_run; eauto).
  rewrite (C68_concat_iff shipped_dir inv p c v B Q dir OF A R T CB).
  - split.
    + intros P s b b' PB PB' ST. destruct (KS s) as (K & S & BN).
      destruct (lists_made w (fl s) b K S BN PB) as (x & l & EX & IX & RX & LX). destruct (lists_made w (fl s) b' K S BN PB') as (y & m & EY & IY & RY & LY).
      assert (IXY := input_join _ _ _ _ EX IX IY). specialize (P s 0 0 0 x y EX (proj2 (QI s _) IXY)).
      destruct (read_items_app (works w) (fl s) x y EX) as (l' & m' & RX' & RY' & RXY & CL); [now apply (lists_cases w (fl s) K S BN)|exact IXY|].
      assert (l' = l) by congruence. assert (m' = m) by congruence. subst l' m'.
      rewrite (RUN s 0 _ _ IX RX), (RUN s 0 _ _ IY RY), (RUN s 0 _ _ IXY RXY), (lists_app w) in P; auto. rewrite LX, LY in P. cbn [app until_stop] in P. rewrite ST in P.
      destruct (snd (outcome w (fl s) (ops s) b')); rewrite ?append_nil in P; apply (f_equal String.length) in P; rewrite append_length in P;
        destruct (fst (outcome w (fl s) (ops s) b')); [reflexivity|cbn in P; lia|reflexivity|cbn in P; lia].
    + intros H s seed seed1 seed2 a b EA HQ. destruct (KS s) as (K & S & BN). apply (QI s) in HQ. destruct (input_app _ _ a b EA HQ) as (QA & QB).
      destruct (read_items_app (works w) (fl s) a b EA) as (l & m & RA & RB & RAB & CL); [now apply (lists_cases w (fl s) K S BN)|exact HQ|].
      rewrite (RUN s seed _ _ HQ RAB), (RUN s seed1 _ _ QA RA), (RUN s seed2 _ _ QB RB), (lists_app w); auto.
      apply (until_pieces _ (possible (works w) (fl s))).
      * intros x y PX PY. now apply H.
      * apply Forall_forall. intros x I. exact (lists_possible w (fl s) a l x K S BN QA RA I).
      * apply Forall_forall. intros x I. exact (lists_possible w (fl s) b m x K S BN QB RB I).
  - intros a b EA HQ. apply (QI (fun _ => "")). apply (QI (fun _ => "")) in HQ. now apply (input_app _ _ a b EA HQ).
Qed.
Print Assumptions C60_stops_iff.
(** If a command makes xargs stop and some command prints something, some plan prints what xargs
    never prints. *)
Theorem C60_stops_wrong : forall inv p c v B w (Q : string -> Prop) dir s b b',
  cmd_name inv = "xargs" -> offered shipped_dir inv p ->
  Forall (fun fo => In (fo_name fo) xargs_names) (flag_option_list inv) ->
  invocation_of inv c -> reads_one c v -> tight c ->
  let fl s := map (wflag_of c s) (v_flags c) in let ops s := map (word_of c s) (v_ops c) in
  (forall s, one_kind (fl s) /\ xargs_safe (works w) (fl s) /\ bad_number (fl s) = false) ->
  (forall s x, Q x <-> xargs_input (works w) (fl s) x) ->
  is_xargs_stopping w B -> is_cat B ->
  possible (works w) (fl s) b -> possible (works w) (fl s) b' ->
  snd (outcome w (fl s) (ops s) b) = true -> fst (outcome w (fl s) (ops s) b') <> "" ->
  parallel_wrong B dir p c v (fun n => n <> 0) Q.
Proof.
  intros inv p c v B w Q dir s b b' C OF F IN R T fl ops KS QI XB CB PB PB' ST NE. assert (A := concat_of inv p C OF).
  assert (RUN : forall s sd x l, xargs_input (works w) (fl s) x -> read_items (works w) (fl s) x = Some l ->
    run B sd c (put v x s) = until_stop (outcome w (fl s) (ops s)) (argument_lists (fl s) l)) by (eapply stops_run; eauto).
  destruct (KS s) as (K & S & BN).
  destruct (lists_made w (fl s) b K S BN PB) as (x & l & EX & IX & RX & LX). destruct (lists_made w (fl s) b' K S BN PB') as (y & m & EY & IY & RY & LY).
  assert (IXY := input_join _ _ _ _ EX IX IY).
  destruct (read_items_app (works w) (fl s) x y EX) as (l' & m' & RX' & RY' & RXY & CL); [now apply (lists_cases w (fl s) K S BN)|exact IXY|].
  assert (l' = l) by congruence. assert (m' = m) by congruence. subst l' m'.
  apply (C68_concat_wrong shipped_dir inv p c v B Q dir s x y); auto; [now apply (QI s)| | |].
  - intros sd. now rewrite !(RUN s _ _ _ IX RX).
  - intros sd. now rewrite !(RUN s _ _ _ IY RY).
  - intros sd. rewrite (RUN s sd _ _ IXY RXY), (RUN s 0 _ _ IX RX), (RUN s 0 _ _ IY RY), (lists_app w), LX, LY by auto.
    cbn [app until_stop]. rewrite ST. intros P. apply NE.
    destruct (snd (outcome w (fl s) (ops s) b')); rewrite ?append_nil in P; apply (f_equal String.length) in P; rewrite append_length in P;
        destruct (fst (outcome w (fl s) (ops s) b')); [reflexivity|cbn in P; lia|reflexivity|cbn in P; lia].
Qed.
Print Assumptions C60_stops_wrong.

(** ** Quotes that are not closed
    If an input that starts with such a quote may come before one for which a command prints
    something, no use of xargs is right for which quotes matter at all. *)
Lemma unclosed_app x y : ends_line x -> unclosed_first x -> x <> "" -> unclosed_first (x +++ y).
Proof.
  intros EX (q & t & rest & QC & -> & NT & NQ & D) N. exists q, t, (rest +++ y). split; [exact QC|]. split; [cbn; now rewrite append_assoc|]. split; [exact NT|]. split; [exact NQ|].
  destruct D as [->|(r & ->)]; [|right; exists (r +++ y); reflexivity]. exfalso. destruct EX as [E|(u & E)]; [discriminate E|]. rewrite append_nil in E.
  assert (H : has_char newline (String q t) = true) by (rewrite E, has_char_app; cbn [has_char]; rewrite Ascii.eqb_refl; apply orb_true_r).
  cbn [has_char] in H. rewrite NT, orb_false_r in H. apply Ascii.eqb_eq in H. subst q. discriminate QC.
Qed.
Theorem C60_unclosed_wrong : forall inv p c v B o (Q : string -> Prop) dir s x y l,
  cmd_name inv = "xargs" -> offered shipped_dir inv p ->
  Forall (fun fo => In (fo_name fo) xargs_names) (flag_option_list inv) ->
  invocation_of inv c -> reads_one c v -> tight c ->
  let fl := map (wflag_of c s) (v_flags c) in let ops := map (word_of c s) (v_ops c) in
  one_kind fl -> given fl ["--help"; "--version"] = false -> bad_number fl = false -> separator o fl = None ->
  is_xargs_full o B -> gives_up o B -> is_cat B ->
  ends_line x -> unclosed_first x -> read_items o fl y = Some l -> has_char nul y = false -> xargs_prints o fl ops l <> "" -> Q (x +++ y) ->
  parallel_wrong B dir p c v (fun n => n <> 0) Q.
Proof.
  intros inv p c v B o Q dir s x y l C OF F IN R T fl ops K H BN SE XB GB CB EX UX RY NY PY QXY. assert (A := concat_of inv p C OF).
  assert (KN : known xargs_names fl) by (apply (names_known inv c s _ IN F)). destruct IN as (CN & IN).
  assert (NX : x <> "") by (destruct UX as (q & t & rest & _ & -> & _); discriminate).
  assert (RX : forall sd, run B sd c (put v x s) = "") by (intros sd; rewrite (put_run B _ c v s _ R), CN, C; now apply GB).
  assert (RXY : forall sd, run B sd c (put v (x +++ y) s) = "") by (intros sd; rewrite (put_run B _ c v s _ R), CN, C; apply GB; auto; now apply unclosed_app).
  assert (RYY : forall sd, run B sd c (put v y s) = xargs_prints o fl ops l) by (intros sd; rewrite (put_run B _ c v s _ R), CN, C; now apply XB).
  apply (C68_concat_wrong shipped_dir inv p c v B Q dir s x y); auto.
  - intros sd. now rewrite !RX.
  - intros sd. now rewrite !RYY.
  - intros sd. rewrite RXY, RX, RYY. cbn. intros E. now apply PY.
Qed.
Print Assumptions C60_unclosed_wrong.

(** ** Cases *)
(** The command stops xargs if its last argument is x, as a script with exit 255 does. *)
Definition stopping_world (silent : bool) : xargs_stopping :=
  mkStopping (mkXargsWorld (fun _ b => if silent then "" else echo_words b) (fun _ _ x => if silent then "" else x +++ String newline "") (delimiter echo_world) "")
    (fun _ b => String.eqb (last b "") "x") (fun _ _ x => String.eqb x "x").
Definition system13 (silent : bool) : behaviour := fun seed cmd fl ops inputs =>
  if String.eqb cmd "cat" then joined inputs else
  match read_items echo_world fl (joined inputs) with Some l => xargs_until (stopping_world silent) fl ops l | None => "" end.
Lemma system13_xargs silent : is_xargs_stopping (stopping_world silent) (system13 silent).
Proof.
  intros seed fl ops input l _ _ E _. unfold system13. cbn [String.eqb Ascii.eqb Bool.eqb joined fold_right]. rewrite append_nil.
  change (read_items echo_world fl input = Some l) in E. now rewrite E.
Qed.
Lemma system13_cat silent : is_cat (system13 silent).
Proof. intros seed ops inputs _. reflexivity. Qed.
Example C60_stops_case : exists inv, parse shipped_dir "xargs -r -n 1 run" = Ok inv /\
  let c := filter_civ "xargs" [FFlag "-r"; FOptIO "-n" (PArg "1")] [PArg "run"] in
  invocation_of inv c /\ forall p, In p (stateless SpecPara.concat) ->
    offered shipped_dir inv p /\
    parallel_wrong (system13 false) shipped_dir p c 1 (fun n => n <> 0) unquoted_lines /\
    parallel_ok (system13 true) shipped_dir p c 1 (fun n => n <> 0) unquoted_lines /\
    system13 false 0 "xargs" [WFlag "-r"; WOption "-n" (WText "1")] [WText "run"] ["a
x
b
"] = "a
x
".
Proof.
  eexists. split; [vm_compute; reflexivity|]. cbv zeta. split; [split; reflexivity|]. intros p I.
  assert (OF : offered shipped_dir (mkInv "xargs" [Flag "-r"; Option_ "-n" "1"] ["run"]) p) by now apply xargs_offered.
  assert (KS : forall silent (s : store), let fl := map (wflag_of (filter_civ "xargs" [FFlag "-r"; FOptIO "-n" (PArg "1")] [PArg "run"]) s) [FFlag "-r"; FOptIO "-n" (PArg "1")] in
    one_kind fl /\ xargs_safe (works (stopping_world silent)) fl /\ bad_number fl = false).
  { intros silent s. cbv zeta. split; [apply plain_one_kind; reflexivity|]. split; [|reflexivity]. split; [reflexivity|right]. split; [left; reflexivity|right; split; [reflexivity|left; reflexivity]]. }
  assert (QI : forall silent (s : store) x, unquoted_lines x <-> xargs_input (works (stopping_world silent)) (map (wflag_of (filter_civ "xargs" [FFlag "-r"; FOptIO "-n" (PArg "1")] [PArg "run"]) s) [FFlag "-r"; FOptIO "-n" (PArg "1")]) x).
  { intros silent s x. unfold xargs_input. cbn. split; [intros U; split; [exact U|discriminate]|intros (U & _); exact U]. }
  split; [exact OF|]. split; [|split; [|vm_compute; reflexivity]].
  - eapply (C60_stops_wrong (mkInv "xargs" [Flag "-r"; Option_ "-n" "1"] ["run"]) p _ 1%Z _ (stopping_world false) unquoted_lines shipped_dir (fun _ => "") ["x"] ["b"]);
      [reflexivity|exact OF|apply Forall_forall; cbn; intuition (subst; cbn; auto 12)|split; reflexivity|now apply filter_civ_reads|now apply filter_civ_tight|apply KS|apply QI|apply system13_xargs|apply system13_cat| | |reflexivity|discriminate].
    + split; [repeat constructor|now left].
    + split; [repeat constructor|now left].
  - eapply (C60_stops_iff (mkInv "xargs" [Flag "-r"; Option_ "-n" "1"] ["run"]) p _ 1%Z _ (stopping_world true) unquoted_lines shipped_dir);
      [reflexivity|exact OF|apply Forall_forall; cbn; intuition (subst; cbn; auto 12)|split; reflexivity|now apply filter_civ_reads|now apply filter_civ_tight|apply KS|apply QI|apply system13_xargs|apply system13_cat|].
    intros s b b' _ _ _. reflexivity.
Qed.
(** A program behind the name col that copies lines up to the first that is q *)
Definition copy_line (l : string) : string * bool := (l +++ String newline "", String.eqb l "q").
Definition copy_until : behaviour := fun seed cmd fl ops inputs =>
  if String.eqb cmd "cat" then joined inputs else until_stop copy_line (lines (joined inputs)).
Example C68_stopping_case : exists inv, parse shipped_dir "col" = Ok inv /\ forall p, In p (stateless SpecPara.concat) -> offered shipped_dir inv p /\
  ~ parallel_ok copy_until shipped_dir p (filter_civ "col" [] []) 1 (fun n => n <> 0) (fun x => Forall (fun _ => True) (lines x)) /\
  parallel_ok copy_until shipped_dir p (filter_civ "col" [] []) 1 (fun n => n <> 0) (fun x => Forall (fun l => l <> "q") (lines x)).
Proof.
  eexists. split; [vm_compute; reflexivity|]. intros p I.
  assert (OF : offered shipped_dir (mkInv "col" [] []) p) by (eapply offered_first; [vm_compute; reflexivity|exact I]).
  assert (A : p_aggregator p = SpecPara.concat) by (destruct I as [<-|[<-|[]]]; reflexivity).
  assert (R : reads_one (filter_civ "col" [] []) 1) by now apply filter_civ_reads.
  assert (T : tight (filter_civ "col" [] [])) by now apply filter_civ_tight.
  assert (C : is_cat copy_until) by (intros seed ops inputs _; reflexivity).
  assert (H : forall (q : string -> Prop) seed s, Forall q (lines (s 1%Z)) -> run copy_until seed (filter_civ "col" [] []) s = until_stop copy_line (lines (s 1%Z))).
  { intros q seed s _. rewrite (run_original copy_until seed _ 1%Z s R). unfold copy_until. cbn [v_cmd filter_civ String.eqb Ascii.eqb Bool.eqb joined fold_right]. now rewrite append_nil. }
  split; [exact OF|]. split.
  - intros OK. pose proof (proj1 (C68_stopping_iff shipped_dir _ p _ 1%Z copy_until shipped_dir (fun _ => copy_line) (fun _ => True) OF A R T C (H _) (fun _ _ => eq_refl)) OK) as K.
    specialize (K (fun _ => "") "q" "b" eq_refl eq_refl Logic.I Logic.I eq_refl). discriminate K.
  - apply (C68_stopping_iff shipped_dir _ p _ 1%Z copy_until shipped_dir (fun _ => copy_line) (fun l => l <> "q") OF A R T C (H _) (fun _ _ => eq_refl)).
    intros s l l' _ _ N _ E. cbn [snd copy_line] in E. apply String.eqb_eq in E. contradiction.
Qed.

(** The safe xargs -r -n 1 echo, and the input of a line with one quote and a line with a word *)
Definition system_quotes : behaviour := fun seed cmd fl ops inputs =>
  if String.eqb cmd "cat" then joined inputs else
  if given fl ["--help"; "--version"] then about echo_world else
  match read_items echo_world fl (joined inputs) with Some l => xargs_prints echo_world fl ops l | None => "" end.
Lemma read_unclosed bl q t : has_char newline t = false -> has_char q t = false -> forall rest i prev, (rest = "" \/ exists r, rest = String newline r) ->
  read bl i (Quoted q) prev (t +++ rest) = None.
Proof.
  intros NT NQ rest i prev D. revert i prev. induction t as [|a t IH]; intros i prev; cbn [String.append].
  - destruct D as [->|(r & ->)]; cbn [read]; [reflexivity|]. now rewrite Ascii.eqb_refl.
  - cbn [has_char] in NT, NQ. apply orb_false_iff in NT as (NT1 & NT2), NQ as (NQ1 & NQ2). cbn [read]. rewrite (Ascii.eqb_sym a newline), NT1, (Ascii.eqb_sym a q), NQ1. now apply IH.
Qed.
Lemma unclosed_read bl s prev : unclosed_first s -> read bl None Outside prev s = None.
Proof.
  intros (q & t & rest & QC & -> & NT & NQ & D). unfold quote_char in QC. cbn [existsb] in QC.
  assert (X : q = "'"%char \/ q = """"%char) by (apply orb_prop in QC as [QC|QC]; [|apply orb_prop in QC as [QC|QC]; [|discriminate QC]]; apply Ascii.eqb_eq in QC; auto).
  destruct X as [->| ->]; cbn [read]; change (white_char "'") with false; change (white_char """") with false; change (blank_char "'") with false; change (blank_char """") with false;
    rewrite ?andb_false_r; cbn; now apply read_unclosed.
Qed.
Lemma quotes_full : is_xargs_full echo_world system_quotes.
Proof.
  intros seed fl ops input l _ _ E _. unfold system_quotes. cbn [String.eqb Ascii.eqb Bool.eqb joined fold_right]. rewrite append_nil, E.
  unfold xargs_prints. now destruct (given fl ["--help"; "--version"]).
Qed.
Lemma quotes_give_up : gives_up echo_world system_quotes.
Proof.
  intros seed fl ops input _ _ H _ S U. unfold system_quotes. cbn [String.eqb Ascii.eqb Bool.eqb joined fold_right]. rewrite append_nil, H. unfold read_items. rewrite S.
  now rewrite unclosed_read.
Qed.
Example C60_unclosed_case : exists inv, parse shipped_dir "xargs -r -n 1 echo" = Ok inv /\
  let c := filter_civ "xargs" [FFlag "-r"; FOptIO "-n" (PArg "1")] [PArg "echo"] in
  invocation_of inv c /\ forall p, In p (stateless SpecPara.concat) ->
    offered shipped_dir inv p /\ parallel_wrong system_quotes shipped_dir p c 1 (fun n => n <> 0) (fun _ => True).
Proof.
  eexists. split; [vm_compute; reflexivity|]. cbv zeta. split; [split; reflexivity|]. intros p I.
  assert (OF : offered shipped_dir (mkInv "xargs" [Flag "-r"; Option_ "-n" "1"] ["echo"]) p) by now apply xargs_offered.
  split; [exact OF|].
  apply (C60_unclosed_wrong (mkInv "xargs" [Flag "-r"; Option_ "-n" "1"] ["echo"]) p _ 1%Z _ echo_world (fun _ => True) shipped_dir (fun _ => "") (unlines ["'a"]) (unlines ["b"]) [("b", true)]);
    try reflexivity; try exact Logic.I; try exact OF; try (now apply filter_civ_reads); try (now apply filter_civ_tight).
  - apply Forall_forall; cbn; intuition (subst; cbn; auto 12).
  - split; reflexivity.
  - apply plain_one_kind; reflexivity.
  - apply quotes_full.
  - apply quotes_give_up.
  - intros seed ops inputs _. reflexivity.
  - apply unlines_ends.
  - exists "'"%char, "a", (String newline ""). repeat split; eauto.
  - vm_compute. discriminate.
Qed.
