(** * Proofs about xargs with more of its options *)
From Coq Require Import Lia.
Require Import Verif.PyBase Verif.JsonData Verif.Parser Verif.Access Verif.IOInfo Verif.IOVars
  Verif.Transformers Verif.ParaTypes Verif.ParaGen Verif.MapperAgg Verif.SpecLists Verif.SpecIO Verif.SpecVars Verif.SpecPara
  Verif.ParserFacts Verif.ParaProps Verif.ShippedData Verif.P_Para Verif.SpecSem Verif.SemFacts Verif.SemRun Verif.SemProps Verif.SpecSem2
  Verif.SemProps2 Verif.SpecSem6 Verif.P_Sem6 Verif.SpecSem7.

(** ** Reading *)
Definition both (r r' : option (list (string * bool))) : option (list (string * bool)) :=
  match r, r' with Some l, Some l' => Some (l ++ l') | _, _ => None end.
Lemma emit_both i e r r' : emit i e (both r r') = both (emit i e r) r'.
Proof. destruct i, r, r'; reflexivity. Qed.
Lemma both_nil r : both (Some []) r = r.
Proof. now destruct r. Qed.
Lemma unquoted_app a : forall st b,
  lines_unquoted st (a +++ String newline b) = lines_unquoted st (a +++ String newline "") && lines_unquoted Outside b.
Proof.
  induction a as [|x a IH]; intros st b.
  - destruct st; cbn [String.append lines_unquoted]; [reflexivity| |]; rewrite Ascii.eqb_refl; reflexivity.
  - cbn [String.append lines_unquoted]. destruct st.
    + destruct (Ascii.eqb x "\"); [apply IH|]. destruct (quote_char x); apply IH.
    + destruct (Ascii.eqb x q); rewrite (IH _ b); apply andb_assoc.
    + rewrite (IH _ b). apply andb_assoc.
Qed.
Lemma read_app bl b a : forall item st prev, lines_unquoted st (a +++ String newline "") = true ->
  read bl item st prev (a +++ String newline b) = both (read bl item st prev (a +++ String newline "")) (read bl None Outside newline b).
Proof.
  assert (W : white_char newline = true) by reflexivity. assert (N : blank_char newline = false) by reflexivity.
  induction a as [|x a IH]; intros item st prev U.
  - destruct st; cbn [String.append lines_unquoted] in U; rewrite ?Ascii.eqb_refl in U; try discriminate U.
    cbn [String.append read]. rewrite W, ?Ascii.eqb_refl, ?N, ?andb_false_r. destruct item; cbn [andb emit].
    + destruct (read bl None Outside newline b); reflexivity.
    + now rewrite both_nil.
  - cbn [String.append lines_unquoted] in U. cbn [String.append read]. destruct st.
    + destruct (_ && white_char x) eqn:E1.
      { apply IH. destruct (Ascii.eqb x "\") eqn:EB; [apply Ascii.eqb_eq in EB; subst x; rewrite andb_comm in E1; discriminate E1|].
        destruct (quote_char x) eqn:EQ; [|exact U]. exfalso. unfold quote_char in EQ. cbn [existsb] in EQ.
        apply orb_prop in EQ as [EQ|EQ]; [|apply orb_prop in EQ as [EQ|EQ]; [|discriminate EQ]]; apply Ascii.eqb_eq in EQ; subst x; rewrite andb_comm in E1; discriminate E1. }
      destruct (Ascii.eqb x newline) eqn:E2.
      { apply Ascii.eqb_eq in E2. subst x. change (Ascii.eqb newline "\") with false in U. change (quote_char newline) with false in U. cbv iota in U.
        rewrite IH by exact U. apply emit_both. }
      destruct (bl && blank_char x) eqn:E3.
      { rewrite IH; [apply emit_both|]. destruct (Ascii.eqb x "\") eqn:EB; [apply Ascii.eqb_eq in EB; subst x; rewrite andb_comm in E3; discriminate E3|].
        destruct (quote_char x) eqn:EQ; [|exact U]. exfalso. unfold quote_char in EQ. cbn [existsb] in EQ.
        apply orb_prop in EQ as [EQ|EQ]; [|apply orb_prop in EQ as [EQ|EQ]; [|discriminate EQ]]; apply Ascii.eqb_eq in EQ; subst x; rewrite andb_comm in E3; discriminate E3. }
      destruct (Ascii.eqb x "\"); [now apply IH|]. destruct (quote_char x); now apply IH.
    + apply andb_prop in U as [U1 U2]. apply negb_true_iff in U1. rewrite U1. destruct (Ascii.eqb x q); now apply IH.
    + apply andb_prop in U as [U1 U2]. now apply IH.
Qed.
Lemma read_some bl s : forall item st prev, lines_unquoted st s = true -> exists l, read bl item st prev s = Some l.
Proof.
  assert (E : forall i e r, (exists l, r = Some l) -> exists l, emit i e r = Some l).
  { intros i e r [l ->]. destruct i; cbn; eauto. }
  induction s as [|x s IH]; intros item st prev U; cbn [read lines_unquoted] in *.
  - destruct st; [apply E; eauto|discriminate|apply E; eauto].
  - destruct st.
    + destruct (Ascii.eqb x "\") eqn:EB.
      { apply Ascii.eqb_eq in EB. subst x. change (white_char "\") with false. rewrite andb_false_r. cbn [Ascii.eqb Bool.eqb].
        change (blank_char "\") with false. rewrite andb_false_r. now apply IH. }
      destruct (quote_char x) eqn:EQ.
      { assert (X : white_char x = false /\ Ascii.eqb x newline = false /\ blank_char x = false).
        { unfold quote_char in EQ. cbn [existsb] in EQ. apply orb_prop in EQ as [EQ|EQ]; [|apply orb_prop in EQ as [EQ|EQ]; [|discriminate EQ]];
            apply Ascii.eqb_eq in EQ; subst x; repeat split. }
        destruct X as (-> & -> & ->). rewrite !andb_false_r. now apply IH. }
      destruct (_ && _); [now apply IH|]. destruct (Ascii.eqb x newline); [apply E; now apply IH|]. destruct (_ && _); [apply E; now apply IH|now apply IH].
    + apply andb_prop in U as [U1 U2]. apply negb_true_iff in U1. rewrite U1. destruct (Ascii.eqb x q); now apply IH.
    + apply andb_prop in U as [U1 U2]. now apply IH.
Qed.

(** ** Options *)
Lemma last_none fl n : given fl [n] = false -> last_number fl [n] = None /\ last_text fl [n] = None.
Proof.
  unfold last_number, last_text, given. assert (G : forall r r', existsb (fun f => mem (wflag_name f) [n]) fl = false ->
    fold_left (fun r f => match f with WOption m (WText s) => if mem m [n] then Some (number s) else r | _ => r end) fl r = r /\
    fold_left (fun r f => match f with WOption m (WText s) => if mem m [n] then Some s else r | _ => r end) fl r' = r').
  { induction fl as [|f fl IH]; intros r r' H; [split; reflexivity|]. cbn [existsb] in H. apply orb_false_elim in H as [H1 H2]. cbn [fold_left].
    destruct f as [m|m [|s| | |]]; cbn [wflag_name] in H1; rewrite ?H1; now apply IH. }
  intros H. now apply (G None None).
Qed.
Lemma last_some fl n : one_kind fl -> In n ["-n"; "-L"; "-I"; "--delimiter"] -> given fl [n] = true ->
  exists t, last_text fl [n] = Some t /\ last_number fl [n] = Some (number t).
Proof.
  intros (T & _) I G. unfold last_number, last_text, given in *.
  assert (F : forall f, In f fl -> wflag_name f = n -> exists s, f = WOption n (WText s)) by (intros; eapply T; eauto). clear T I.
  assert (X : forall r r', (existsb (fun f => mem (wflag_name f) [n]) fl = true \/ (exists t, r = Some (number t) /\ r' = Some t)) ->
    exists t, fold_left (fun r f => match f with WOption m (WText s) => if mem m [n] then Some s else r | _ => r end) fl r' = Some t /\
      fold_left (fun r f => match f with WOption m (WText s) => if mem m [n] then Some (number s) else r | _ => r end) fl r = Some (number t)).
  { clear G. induction fl as [|f fl IH]; intros r r' H; cbn [fold_left].
    - destruct H as [H|(t & -> & ->)]; [discriminate|eauto].
    - assert (F' : forall g, In g fl -> wflag_name g = n -> exists s, g = WOption n (WText s)) by (intros; apply F; auto; now right).
      destruct (mem (wflag_name f) [n]) eqn:E.
      + apply mem_In in E as [E|[]]. symmetry in E. destruct (F f (or_introl eq_refl) E) as [s ->].
        assert (M : mem n [n] = true) by (apply mem_In; now left). rewrite M. apply IH; eauto.
      + assert (H' : existsb (fun f => mem (wflag_name f) [n]) fl = true \/ (exists t, r = Some (number t) /\ r' = Some t)).
        { destruct H as [H|H]; [|now right]. cbn [existsb] in H. rewrite E in H. now left. }
        destruct f as [m|m [|s| | |]]; cbn [wflag_name] in E; rewrite ?E; apply IH; auto. }
  apply X. now left.
Qed.

(** ** One command for each item or line *)
Definition closed_list (l : list (string * bool)) : Prop := forall x e l', l = l' ++ [(x, e)] -> e = true.
Lemma line_batches_app l : forall m, closed_list l -> line_batches 0 0 (l ++ m) = line_batches 0 0 l ++ line_batches 0 0 m.
Proof.
  assert (G : forall l m, (l <> [] -> closed_list l) -> line_batches 0 0 (l ++ m) = line_batches 0 0 l ++ line_batches 0 0 m /\ (l <> [] -> line_batches 0 0 l <> [])).
  { clear. induction l as [|[x e] l IH]; intros m C; [split; [reflexivity|easy]|]. cbn [app line_batches].
    assert (C' : l <> [] -> closed_list l).
    { intros N y f l' ->. apply (C ltac:(discriminate) y f ((x, e) :: l')). reflexivity. }
    destruct (IH m C') as [E N]. destruct e.
    - rewrite E. split; [reflexivity|discriminate].
    - assert (L : l <> []). { intros ->. specialize (C ltac:(discriminate) x false [] eq_refl). discriminate. }
      rewrite E. specialize (N L). destruct (line_batches 0 0 l); [easy|]. split; [reflexivity|discriminate]. }
  intros m C. now apply G.
Qed.
Lemma closed_app l m : closed_list l -> closed_list m -> closed_list (l ++ m).
Proof.
  intros L M x e k H. destruct (list_eq_dec (fun a b : string * bool => ltac:(decide equality; [apply Bool.bool_dec|apply String.string_dec])) m []) as [->|N].
  - rewrite app_nil_r in H. eapply L; eauto.
  - destruct (exists_last N) as (m' & [y f] & ->). rewrite app_assoc in H. apply app_inj_tail in H as [_ [= -> ->]]. eapply M; reflexivity.
Qed.
Lemma lines_closed ls : forall l, Forall complete_line ls -> Forall (fun r => has_char newline r = false) ls ->
  lines_unquoted Outside (unlines ls) = true -> read true None Outside newline (unlines ls) = Some l -> closed_list l.
Proof.
  induction ls as [|r ls IH]; intros l C N U R.
  - cbn in R. injection R as <-. intros x e k H. now destruct k.
  - unfold unlines, terminated in U, R. cbn [map joined fold_right] in U, R. rewrite append_assoc in U, R. cbn [String.append] in U, R.
    fold (joined (map (fun r => r +++ String newline "") ls)) in U, R. change (joined (map (fun r => r +++ String newline "") ls)) with (unlines ls) in U, R.
    rewrite unquoted_app in U. apply andb_prop in U as [U1 U2]. rewrite read_app in R by exact U1.
    inversion C as [|? ? C1 C2]; inversion N; subst. unfold complete_line in C1.
    destruct (read true None Outside newline (r +++ String newline "")) as [l1|]; [|discriminate R].
    destruct (read true None Outside newline (unlines ls)) as [l2|] eqn:R2; [|discriminate R]. cbn in R. injection R as <-.
    apply closed_app; [exact C1|]. now apply IH.
Qed.
Lemma unlines_lines a : ends_line a -> unlines (lines a) = a.
Proof.
  intros [->|(t & ->)]; [reflexivity|]. induction t as [|x t IH]; [reflexivity|]. unfold lines in *. cbn [String.append records].
  destruct (Ascii.eqb_spec x newline) as [->|N].
  - change (unlines ("" :: records newline (t +++ String newline ""))) with (String newline (unlines (records newline (t +++ String newline "")))). now rewrite IH.
  - destruct (records newline (t +++ String newline "")) as [|r rs].
    + exfalso. destruct t; discriminate IH.
    + change (unlines (String x r :: rs)) with (String x (unlines (r :: rs))). now rewrite IH.
Qed.

(** ** Inputs *)
Lemma input_app o fl a b : ends_line a -> xargs_input o fl (a +++ b) -> xargs_input o fl a /\ xargs_input o fl b.
Proof.
  unfold xargs_input, no_null, unquoted_lines. intros EA H. destruct (separator o fl).
  - rewrite has_char_app in H. now apply orb_false_elim in H.
  - destruct H as ((U & N) & L). rewrite has_char_app in N. apply orb_false_elim in N as [N1 N2].
    assert (U' : lines_unquoted Outside a = true /\ lines_unquoted Outside b = true).
    { destruct EA as [->|(t & ->)]; [now split|]. rewrite append_assoc in U. cbn [String.append] in U. rewrite unquoted_app in U. now apply andb_prop in U. }
    destruct U'. assert (E : lines (a +++ b) = lines a ++ lines b) by (apply records_app; exact EA). rewrite E in L.
    split; (split; [now split|]); intros G; apply L, Forall_app in G; apply G.
Qed.
Lemma tidy_closed : tail_closed tidy_lines.
Proof.
  intros a b EA (U & C). set (fl := [WOption "-L" (WText "1")]). set (o := mkXargsWorld (fun _ _ => "") (fun _ _ _ => "") (fun _ => newline) "").
  destruct (input_app o fl a b EA) as (_ & (U' & C')); [split; [exact U|intros _; exact C]|]. split; [exact U'|]. now apply C'.
Qed.
Lemma read_items_app o fl a b : ends_line a -> (separator o fl = None \/ separator o fl = Some newline) -> xargs_input o fl (a +++ b) ->
  exists l m, read_items o fl a = Some l /\ read_items o fl b = Some m /\ read_items o fl (a +++ b) = Some (l ++ m) /\
    (given fl ["-L"] = true -> given fl ["-I"] = false -> closed_list l).
Proof.
  intros EA S H. destruct (input_app o fl a b EA H) as (HA & HB). unfold read_items, xargs_input in *. destruct (separator o fl) as [d|].
  - destruct S as [S|S]; [discriminate|]. injection S as ->. do 2 eexists. split; [reflexivity|]. split; [reflexivity|].
    rewrite records_app by exact EA. rewrite map_app. split; [reflexivity|]. intros _ _ x e l' E.
    assert (J : In (x, e) (map (fun r => (r, true)) (records newline a))) by (rewrite E; apply in_app_iff; right; now left).
    apply in_map_iff in J as (r & [= _ <-] & _). reflexivity.
  - destruct HA as ((UA & _) & CA), HB as ((UB & _) & _).
    destruct (read_some (negb (given fl ["-I"])) a None Outside newline UA) as (l & RA).
    destruct (read_some (negb (given fl ["-I"])) b None Outside newline UB) as (m & RB).
    exists l, m. split; [exact RA|]. split; [exact RB|]. split.
    + destruct EA as [->|(t & ->)]; [cbn in RA; injection RA as <-; exact RB|]. rewrite append_assoc. cbn [String.append].
      rewrite read_app by exact UA. now rewrite RA, RB.
    + intros GL GI. rewrite GI in RA. cbn [negb] in RA. apply (lines_closed (lines a)); [now apply CA|apply records_clean| |]; now rewrite unlines_lines.
Qed.

(** ** What is printed *)
Lemma prints_app o fl ops l m : one_kind fl -> xargs_safe o fl -> (given fl ["-L"] = true -> given fl ["-I"] = false -> closed_list l) ->
  xargs_prints o fl ops (l ++ m) = xargs_prints o fl ops l +++ xargs_prints o fl ops m.
Proof.
  intros K (H & S) C. unfold xargs_prints. rewrite H. destruct (bad_number fl) eqn:BN; [reflexivity|].
  destruct S as [S|(_ & S)]; [discriminate S|]. destruct (given fl ["-I"]) eqn:GI.
  { destruct (last_some fl "-I" K) as (t & -> & _); [cbn; auto|exact GI|]. now rewrite map_app, joined_map_app. }
  destruct S as [S|(R & S)]; [discriminate S|]. destruct (last_none fl "-I" GI) as (_ & ->). rewrite R.
  assert (X : forall k, (match k with [] => "" | _ => joined (map (appended o ops) (grouped fl k)) end) = joined (map (appended o ops) (grouped fl k)) /\
    (last_number fl ["-n"] = Some 1 /\ grouped fl k = map (fun x => [x]) (map fst k) \/
     last_number fl ["-n"] = None /\ last_number fl ["-L"] = Some 1 /\ grouped fl k = line_batches 0 0 k)).
  { intros k. assert (Y : last_number fl ["-n"] = Some 1 /\ grouped fl k = map (fun x => [x]) (map fst k) \/
     last_number fl ["-n"] = None /\ last_number fl ["-L"] = Some 1 /\ grouped fl k = line_batches 0 0 k).
    { unfold grouped, bad_number in *. destruct S as [S|S]; rewrite S in *.
      - left. split; [reflexivity|]. rewrite batches_one. destruct (last_number fl ["-L"]) as [[|]|]; [discriminate BN|reflexivity|reflexivity].
      - assert (GL : given fl ["-L"] = true).
        { destruct (given fl ["-L"]) eqn:E; [reflexivity|]. apply last_none in E as (E & _). rewrite E in S. discriminate S. }
        destruct K as (_ & K & _). assert (GN := K "-L" "-n" ltac:(cbn; auto) ltac:(cbn; auto) ltac:(discriminate) GL).
        apply last_none in GN as (-> & _). right. auto. }
    split; [|exact Y]. destruct k; [|reflexivity]. destruct Y as [(_ & ->)|(_ & _ & ->)]; reflexivity. }
  destruct (X (l ++ m)) as (-> & X1), (X l) as (-> & X2), (X m) as (-> & X3). rewrite <- joined_map_app. do 2 f_equal.
  destruct X1 as [(N & ->)|(N & L & ->)], X2 as [(N' & ->)|(N' & _ & ->)], X3 as [(N'' & ->)|(N'' & _ & ->)]; try congruence.
  - now rewrite !map_app.
  - apply line_batches_app, C; [|reflexivity].
    destruct (given fl ["-L"]) eqn:E; [reflexivity|]. apply last_none in E as (E & _). rewrite E in L. discriminate L.
Qed.
Lemma input_read o fl x : xargs_input o fl x -> has_char nul x = false /\ exists l, read_items o fl x = Some l.
Proof.
  unfold xargs_input, read_items. destruct (separator o fl); [intros H; split; [exact H|eauto]|]. intros ((U & N) & _). split; [exact N|]. now apply read_some.
Qed.
Lemma xargs_full_piecewise inv c v B o (Q : string -> Prop) :
  cmd_name inv = "xargs" -> Forall (fun fo => In (fo_name fo) xargs_names) (flag_option_list inv) ->
  invocation_of inv c -> reads_one c v -> is_xargs_full o B ->
  (forall s, one_kind (map (wflag_of c s) (v_flags c)) /\ xargs_safe o (map (wflag_of c s) (v_flags c))) ->
  (forall s x, Q x -> xargs_input o (map (wflag_of c s) (v_flags c)) x) ->
  piecewise B c v Q.
Proof.
  intros C F IN R XB KS QI s seed seed1 seed2 a b EA HQ. rewrite !(put_run B _ c v s _ R).
  assert (CN : v_cmd c = "xargs") by (destruct IN as (-> & _); exact C). assert (KN := names_known inv c s _ IN F).
  destruct (KS s) as (K & S). specialize (QI s _ HQ). set (fl := map (wflag_of c s) (v_flags c)) in *. set (ops := map (word_of c s) (v_ops c)).
  destruct (input_app o fl a b EA QI) as (QA & QB).
  assert (RUN : forall sd x l, xargs_input o fl x -> read_items o fl x = Some l -> B sd (v_cmd c) fl ops [x] = xargs_prints o fl ops l).
  { intros sd x l H E. rewrite CN. apply XB; auto. now apply (input_read o fl). }
  destruct (bad_number fl) eqn:BN.
  - assert (E : forall sd x, xargs_input o fl x -> B sd (v_cmd c) fl ops [x] = "").
    { intros sd x H. destruct (input_read o fl x H) as (_ & l & E). rewrite (RUN sd x l H E). unfold xargs_prints. destruct S as (-> & _). now rewrite BN. }
    now rewrite !E.
  - destruct (read_items_app o fl a b EA) as (l & m & EA' & EB & EAB & CL); [|exact QI|].
    { destruct S as (_ & [S|(S & _)]); [congruence|exact S]. }
    rewrite (RUN seed _ _ QI EAB), (RUN seed1 _ _ QA EA'), (RUN seed2 _ _ QB EB). now apply prints_app.
Qed.

(** ** Unsafe uses *)
Definition loud (o : xargs_world) : xargs_world := mkXargsWorld (fun _ _ => "x") (fun _ _ _ => "x") (delimiter o) "x".
Lemma separator_loud o fl : separator (loud o) fl = separator o fl.
Proof. reflexivity. Qed.
Definition probe (o : xargs_world) (fl : list wflag) : ascii := match separator o fl with Some "a"%char => "b" | _ => "a" end.
Lemma records_one d x : has_char d x = false -> x <> "" -> records d x = [x].
Proof.
  induction x as [|a x IH]; intros H N; [easy|]. cbn in H. apply orb_false_elim in H as [H1 H2]. rewrite Ascii.eqb_sym in H1. cbn. rewrite H1.
  destruct x as [|b x]; [reflexivity|]. now rewrite IH.
Qed.
Lemma safe_needed o fl ops : one_kind fl ->
  (forall a b, ends_line a -> tidy_lines (a +++ b) -> forall l m k, read_items (loud o) fl a = Some l -> read_items (loud o) fl b = Some m ->
     read_items (loud o) fl (a +++ b) = Some k -> xargs_prints (loud o) fl ops k = xargs_prints (loud o) fl ops l +++ xargs_prints (loud o) fl ops m) ->
  xargs_safe o fl.
Proof.
  intros K H. set (ch := probe o fl). set (w := String ch (String newline "")).
  assert (EW : ends_line w) by (right; exists (String ch ""); reflexivity).
  assert (CH : ch = "a"%char \/ ch = "b"%char). { unfold ch, probe. destruct (separator o fl) as [[[] [] [] [] [] [] [] []]|]; auto. }
  assert (CD : separator o fl <> Some ch). { unfold ch, probe. destruct (separator o fl) as [[[] [] [] [] [] [] [] []]|]; discriminate. }
  assert (TIDY : tidy_lines (w +++ w) /\ tidy_lines (w +++ "")).
  { unfold w. clear -CH. assert (CL : forall k, k = "a"%char \/ k = "b"%char -> complete_line (String k "")).
    { intros k [-> | ->] y e l' E; vm_compute in E; destruct l' as [|p l']; [now injection E|injection E as _ E; now destruct l'|now injection E|injection E as _ E; now destruct l']. }
    destruct CH as [-> | ->]; (split; (split; [split; reflexivity|])); vm_compute lines; repeat (apply Forall_cons; [apply CL; auto|]); apply Forall_nil. }
  destruct TIDY as (T2 & T1).
  assert (RD : forall x, separator o fl = None \/ separator o fl = Some newline -> x = w +++ w \/ x = w \/ x = "" ->
    read_items (loud o) fl x = Some (map (fun r => (r, true)) (lines x))).
  { intros x S X. unfold read_items. rewrite separator_loud. destruct S as [-> | ->]; [|reflexivity]. unfold w in X. clear -CH X.
    destruct CH as [E|E]; rewrite E in X; destruct X as [->|[->| ->]]; destruct (given fl ["-I"]); vm_compute; reflexivity. }
  assert (L2 : lines (w +++ w) = [String ch ""; String ch ""]) by (unfold w; clear -CH; destruct CH as [-> | ->]; reflexivity).
  assert (L1 : lines w = [String ch ""]) by (unfold w; clear -CH; destruct CH as [-> | ->]; reflexivity).
  assert (RO : forall d, separator o fl = Some d -> d <> newline -> forall x, x = w +++ w \/ x = w -> read_items (loud o) fl x = Some [(x, true)]).
  { intros d S N x X. unfold read_items. rewrite separator_loud, S. assert (Y : records d x = [x]); [|now rewrite Y].
    assert (N' : Ascii.eqb d newline = false) by now apply Ascii.eqb_neq.
    assert (C' : Ascii.eqb d ch = false) by (apply Ascii.eqb_neq; congruence).
    apply records_one; destruct X as [-> | ->]; try discriminate; unfold w; cbn [String.append has_char]; now rewrite ?N', ?C'. }
  assert (GIVEN : forall n, In n ["-n"; "-L"; "-I"] -> (exists k, last_number fl [n] = Some k) -> given fl [n] = true).
  { intros n _ (k & E). destruct (given fl [n]) eqn:G; [reflexivity|]. apply last_none in G as (G & _). congruence. }
  (* one group for one item *)
  assert (ONE : forall y, bad_number fl = false -> joined (map (appended (loud o) ops) (grouped fl [(y, true)])) = "x").
  { intros y BN. unfold grouped, bad_number in *. destruct (last_number fl ["-n"]) as [[|n]|], (last_number fl ["-L"]) as [[|k]|]; try discriminate BN;
      try (destruct n; reflexivity); try (destruct k; reflexivity); reflexivity. }
  unfold xargs_safe. unfold xargs_prints in H. destruct (given fl ["--help"; "--version"]) eqn:HP.
  { exfalso. destruct (separator o fl) as [d|] eqn:S.
    - assert (X := H w w EW T2 _ _ _ ltac:(unfold read_items; rewrite separator_loud, S; reflexivity) ltac:(unfold read_items; rewrite separator_loud, S; reflexivity)
        ltac:(unfold read_items; rewrite separator_loud, S; reflexivity)). discriminate X.
    - assert (X := H w w EW T2 _ _ _ (RD w (or_introl eq_refl) ltac:(auto)) (RD w (or_introl eq_refl) ltac:(auto)) (RD (w +++ w) (or_introl eq_refl) ltac:(auto))). discriminate X. }
  split; [reflexivity|]. destruct (bad_number fl) eqn:BN; [now left|right].
  assert (SEP : separator o fl = None \/ separator o fl = Some newline).
  { destruct (separator o fl) as [d|] eqn:S; [|now left]. destruct (Ascii.eqb_spec d newline) as [->|N]; [now right|exfalso].
    assert (X := H w w EW T2 _ _ _ (RO d eq_refl N w ltac:(auto)) (RO d eq_refl N w ltac:(auto)) (RO d eq_refl N (w +++ w) ltac:(auto))).
    destruct (last_text fl ["-I"]) as [r|]; [discriminate X|]. cbv iota in X. rewrite !ONE in X by reflexivity. discriminate X. }
  split; [exact SEP|]. destruct (given fl ["-I"]) eqn:GI; [now left|right]. destruct (last_none fl "-I" GI) as (_ & LI). rewrite LI in H.
  assert (X2 := H w w EW T2 _ _ _ (RD w SEP ltac:(auto)) (RD w SEP ltac:(auto)) (RD (w +++ w) SEP ltac:(auto))).
  assert (X1 := H w "" EW T1 _ _ _ (RD w SEP ltac:(auto)) (RD "" SEP ltac:(auto)) (RD (w +++ "") SEP ltac:(rewrite append_nil; auto))).
  rewrite append_nil in X1. rewrite L1 in X1. rewrite L2, L1 in X2. cbn [map] in X1, X2. change (lines "") with (@nil string) in X1. cbn [map] in X1.
  rewrite !ONE in X1, X2 by reflexivity. destruct (given fl ["-r"]); [|discriminate X1]. split; [reflexivity|]. clear X1.
  unfold grouped, bad_number in *. destruct (last_number fl ["-n"]) as [[|[|n]]|] eqn:LN.
  - destruct (last_number fl ["-L"]) as [[|]|]; discriminate BN.
  - now left.
  - exfalso. destruct (last_number fl ["-L"]) as [[|]|]; [discriminate BN| |]; destruct n; discriminate X2.
  - right. destruct (last_number fl ["-L"]) as [[|[|n]]|]; [discriminate BN|reflexivity| |]; exfalso; [destruct n; discriminate X2|discriminate X2].
Qed.
