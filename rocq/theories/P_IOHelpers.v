(** * C86: what generators of input/output information written with the helpers give *)
From Coq Require Import Lia Permutation.
Require Import Verif.PyBase Verif.JsonData Verif.Parser Verif.Access Verif.IOInfo Verif.IOGen Verif.IOHelpers Verif.SpecLists Verif.SpecIO Verif.SpecIOHelpers
  Verif.ListFacts Verif.IOFacts Verif.IOGeneral Verif.P_IO Verif.ParaTypes Verif.ParaGen Verif.Registry Verif.SpecRegistry Verif.P_Registry Verif.ShippedData.

Lemma nth_error_ext_eq {A} (l l' : list A) : length l = length l' -> (forall j, nth_error l j = nth_error l' j) -> l = l'.
Proof.
  revert l'. induction l as [|a l IH]; intros [|b l'] L H; cbn in L; try discriminate; [reflexivity|].
  pose proof (H 0) as H0. cbn in H0. injection H0 as ->. f_equal. apply IH; [lia|]. intros j. exact (H (S j)).
Qed.
(** ** One call *)
Definition n_of (i : io_info) : nat := length (operand_list_typer i).
Lemma indexed_dec k : {indexed k} + {~ indexed k}.
Proof. unfold indexed. destruct k; try (left; cbn; tauto); right; cbn; intuition discriminate. Qed.
Lemma idle_dec k : {idle k} + {~ idle k}.
Proof. unfold idle. destruct k; try (left; cbn; tauto); right; cbn; intuition discriminate. Qed.
Lemma helper_dec (a b : io_helper) : {a = b} + {a <> b}.
Proof. decide equality; apply Bool.bool_dec. Defined.
Lemma declares_dec inv ks : declares_stdin inv ks \/ ~ declares_stdin inv ks.
Proof.
  unfold declares_stdin. destruct (in_dec helper_dec (Stdin true) ks) as [A|A]; [auto|].
  destruct (in_dec helper_dec NoOperandsStdin ks) as [B|B]; [|tauto]. destruct (operand_list inv); [auto|]. right. intros [C|(_ & C)]; [auto|discriminate].
Qed.
(** The effect of one call on the classes, and on the standard streams *)
Definition sets_operands (k : io_helper) (i i' : io_info) : Prop :=
  flagoption_list_typer i' = flagoption_list_typer i /\ n_of i' = n_of i /\
  (forall j t, assigns k (n_of i) j t -> nth_error (operand_list_typer i') j = Some t) /\
  (forall j, (forall t, ~ assigns k (n_of i) j t) -> nth_error (operand_list_typer i') j = nth_error (operand_list_typer i) j).
Definition sets_streams (inv : invocation) (k : io_helper) (i i' : io_info) : Prop :=
  implicit_input i' = (if match k with Stdin v => v | NoOperandsStdin => Nat.eqb (length (operand_list inv)) 0 | _ => false end then Some stdin else implicit_input i) /\
  implicit_output i' = (if match k with Stdout v => v | _ => false end then Some stdout else implicit_output i).
Lemma from_retyped k w t P i i' : named k = Some (w, t) -> ~ idle k -> (forall j, j < n_of i -> (P j <-> at_place w (n_of i) j)) -> retyped P t i i' ->
  sets_operands k i i' /\ implicit_input i' = implicit_input i /\ implicit_output i' = implicit_output i.
Proof.
  intros N ID W (F & II & IO & L & H). split; [|auto]. unfold sets_operands, n_of in *. split; [exact F|]. split; [exact L|]. split.
  - intros j t' ((w' & N' & A) & _). rewrite N in N'. injection N' as <- <-. apply H; [apply A|]. apply W; [apply A|exact A].
  - intros j NA. destruct (Nat.lt_ge_cases j (length (operand_list_typer i))) as [J|J].
    + apply H; [exact J|]. intros PJ. apply (NA t). split; [|exact ID]. exists w. split; [exact N|]. now apply W.
    + transitivity (@None typer); [apply nth_error_None; lia|symmetry; apply nth_error_None; lia].
Qed.
Lemma same_operands k i i' : (forall j t, ~ assigns k (n_of i) j t) -> flagoption_list_typer i' = flagoption_list_typer i -> operand_list_typer i' = operand_list_typer i -> sets_operands k i i'.
Proof. intros N F O. unfold sets_operands, n_of. rewrite O. repeat split; auto. intros j t A. now apply N in A. Qed.
Lemma unnamed_none k n : named k = None -> forall j t, ~ assigns k n j t.
Proof. intros N j t ((w & E & _) & _). congruence. Qed.
Lemma idle_none k n : idle k -> forall j t, ~ assigns k n j t.
Proof. intros D j t (_ & N). now apply N. Qed.
Lemma call_one inv k i :
  (operand_list_typer i = [] /\ indexed k /\ call_io inv k i = Raise IndexError) \/
  ((operand_list_typer i <> [] \/ ~ indexed k) /\ exists i', call_io inv k i = Ok i' /\ sets_operands k i i' /\ sets_streams inv k i i').
Proof.
  destruct (C55_all i) as (A1 & A2 & A3 & A4 & A5). destruct (C55_some i) as (S1 & S2 & S3 & S4 & S5 & S6 & S7).
  assert (ALL : forall j, j < n_of i -> (True <-> at_place All (n_of i) j)) by (unfold at_place; tauto).
  assert (FR : forall t i', named k = Some (All, t) -> ~ idle k -> match k with Stdin _ | Stdout _ | NoOperandsStdin => False | _ => True end ->
    retyped (fun _ => True) t i i' -> sets_operands k i i' /\ sets_streams inv k i i').
  { intros t i' N D X R. destruct (from_retyped k All t _ i i' N D ALL R) as (S & I & O). split; [exact S|]. destruct k; try contradiction; split; cbn; assumption. }
  assert (FS : forall r (P : nat -> Prop) w t, indexed k -> named k = Some (w, t) -> ~ idle k -> (forall j, j < n_of i -> (P j <-> at_place w (n_of i) j)) ->
    match k with Stdin _ | Stdout _ | NoOperandsStdin => False | _ => True end -> call_io inv k i = r -> sets r P t i ->
    (operand_list_typer i = [] /\ indexed k /\ call_io inv k i = Raise IndexError) \/
    ((operand_list_typer i <> [] \/ ~ indexed k) /\ exists i', call_io inv k i = Ok i' /\ sets_operands k i i' /\ sets_streams inv k i i')).
  { intros r P w t IX N D W X E [(Z & R)|(Z & i' & R & RT)]; [left; rewrite E; auto|right]. split; [auto|]. exists i'. split; [congruence|].
    destruct (from_retyped k w t P i i' N D W RT) as (S & I & O). split; [exact S|]. destruct k; try contradiction; split; cbn; assumption. }
  unfold is_first, is_last, n_of in *.
  destruct k.
  all: try (right; split; [right; cbn; intuition discriminate|]; eexists; split; [reflexivity|]; eapply FR; [reflexivity|cbn; intuition discriminate|exact I|assumption]).
  all: try (eapply FS; [cbn; tauto|reflexivity|cbn; intuition discriminate| |exact I|reflexivity|eassumption]; unfold at_place; intros j J; tauto).
  all: right; split; [right; cbn; intuition discriminate|]; eexists; (split; [reflexivity|]).
  - split; [apply same_operands; [now apply unnamed_none|now destruct value..]|destruct value; split; reflexivity].
  - split; [apply same_operands; [now apply unnamed_none|now destruct value..]|destruct value; split; reflexivity].
  - unfold if_no_operands_given_stdin_implicitly_used, sets_streams. destruct (Nat.eqb _ 0); (split; [apply same_operands; [now apply unnamed_none|reflexivity..]|split; reflexivity]).
  - split; [apply same_operands; [apply idle_none; cbn; tauto|reflexivity..]|split; reflexivity].
  - split; [apply same_operands; [apply idle_none; cbn; tauto|reflexivity..]|split; reflexivity].
  - split; [apply same_operands; [apply idle_none; cbn; tauto|reflexivity..]|split; reflexivity].
Qed.

(** ** Any calls *)
(** They raise exactly if there is no operand and a helper wants the first or the last one. *)
Theorem C86_raises : forall inv ks i e,
  call_ios inv ks i = Raise e <-> e = IndexError /\ operand_list_typer i = [] /\ exists k, In k ks /\ indexed k.
Proof.
  intros inv ks. induction ks as [|k ks IH]; intros i e.
  { cbn. split; [discriminate|]. intros (_ & _ & k & [] & _). }
  cbn [call_ios]. destruct (call_one inv k i) as [(Z & X & E)|(Z & i' & E & (_ & L & _) & _)]; rewrite E; cbn [bind].
  - split; [intros [= <-]; repeat split; auto; exists k; cbn; auto|]. intros (-> & _). reflexivity.
  - rewrite IH. assert (ZZ : operand_list_typer i' = [] <-> operand_list_typer i = []).
    { unfold n_of in L. destruct (operand_list_typer i'), (operand_list_typer i); cbn in L; split; congruence. }
    split; intros (-> & N & k' & I & X); (split; [reflexivity|]); (split; [now apply ZZ|]); exists k'.
    + cbn. auto.
    + destruct I as [->|I]; [|auto]. destruct Z as [Z|Z]; contradiction.
Qed.
Print Assumptions C86_raises.
(** Otherwise the class of every operand is what the last call about it says, not counting the
    helpers for streaming inputs; standard streams are used as declared; nothing else changes. *)
Theorem C86_last_word : forall inv ks i i', call_ios inv ks i = Ok i' ->
  flagoption_list_typer i' = flagoption_list_typer i /\ length (operand_list_typer i') = length (operand_list_typer i) /\
  (forall j t0, nth_error (operand_list_typer i) j = Some t0 ->
     forall t, nth_error (operand_list_typer i') j = Some t <-> last_word ks (length (operand_list_typer i)) j t0 t) /\
  (declares_stdin inv ks -> implicit_input i' = Some stdin) /\ (~ declares_stdin inv ks -> implicit_input i' = implicit_input i) /\
  (In (Stdout true) ks -> implicit_output i' = Some stdout) /\ (~ In (Stdout true) ks -> implicit_output i' = implicit_output i).
Proof.
  intros inv ks. induction ks as [|k ks IH]; intros i i' E.
  { cbn in E. injection E as <-. repeat split; try (intros []; contradiction); try contradiction; auto.
    - intros ET. right. split; [intros k t' []|congruence].
    - intros [(l & k & l' & Q & _)|(_ & ->)]; [destruct l; discriminate|assumption].
    - intros [[]|([] & _)]. }
  cbn [call_ios] in E. destruct (call_one inv k i) as [(Z & X & R)|(Z & i1 & R & (F & L & A & U) & (SI & SO))]; rewrite R in E; cbn [bind] in E; [discriminate|].
  apply IH in E as (F' & L' & W & I1 & I2 & O1 & O2). unfold n_of in *. rewrite L in *.
  split; [congruence|]. split; [congruence|]. split.
  - intros j t0 J t.
    assert (DEC : (exists t', assigns k (length (operand_list_typer i)) j t') \/ forall t', ~ assigns k (length (operand_list_typer i)) j t').
    { destruct (idle_dec k) as [D|D]; [right; now apply idle_none|]. destruct (named k) as [(w & t')|] eqn:N; [|right; now apply unnamed_none].
      assert (P : at_place w (length (operand_list_typer i)) j \/ ~ at_place w (length (operand_list_typer i)) j) by (unfold at_place; destruct w; lia).
      destruct P as [P|P]; [left; exists t'; split; [exists w; auto|auto]|right]. intros t'' ((w' & N' & P') & _). rewrite N in N'. injection N' as <- <-. contradiction. }
    destruct DEC as [(t1 & AS)|NA].
    + rewrite (W j t1 (A j t1 AS)). split.
      * intros [(l & k' & l' & -> & S)|(N & ->)]; left; [exists (k :: l), k', l'; auto|]. exists [], k, ks. auto.
      * intros [(l & k' & l' & Q & S & N)|(N & _)].
        -- destruct l as [|k0 l]; cbn in Q; injection Q as <- ->; [right|left; exists l, k', l'; auto].
           split; [exact N|]. destruct S as ((w & Y & _) & _), AS as ((w' & Y' & _) & _). congruence.
        -- exfalso. eapply N; [now left|exact AS].
    + rewrite (W j t0) by (now rewrite U). split.
      * intros [(l & k' & l' & -> & S)|(N & ->)]; [left; exists (k :: l), k', l'; auto|]. right. split; [|reflexivity].
        intros k' t' [<-|Q]; auto.
      * intros [(l & k' & l' & Q & S & N)|(N & ->)].
        -- destruct l as [|k0 l]; cbn in Q; injection Q as <- ->; [exfalso; eapply NA; exact S|left; exists l, k', l'; auto].
        -- right. split; [|reflexivity]. intros k' t' Q. apply N. now right.
  - rewrite SI in I2. rewrite SO in O2. unfold declares_stdin in *. cbn [In].
    assert (LE : forall l : list string, Nat.eqb (length l) 0 = true <-> l = []) by (intros []; cbn; split; congruence).
    assert (DECI : (In (Stdin true) ks \/ In NoOperandsStdin ks /\ operand_list inv = []) \/ ~ (In (Stdin true) ks \/ In NoOperandsStdin ks /\ operand_list inv = [])).
    { apply declares_dec. }
    assert (DECO : In (Stdout true) ks \/ ~ In (Stdout true) ks) by (destruct (in_dec helper_dec (Stdout true) ks); auto).
    split; [|split; [|split]].
    + intros D. destruct DECI as [D'|D']; [auto|]. rewrite I2 by exact D'. destruct D as [[->|D]|([->|D] & D2)]; [reflexivity|tauto| |tauto].
      apply LE in D2. rewrite D2. reflexivity.
    + intros D. rewrite I2 by tauto. destruct k as [[]| |  | | | | | | | | | | | | | | |]; try reflexivity; [exfalso; tauto|].
      destruct (Nat.eqb _ 0) eqn:Q; [|reflexivity]. apply LE in Q. exfalso. tauto.
    + intros D. destruct DECO as [D'|D']; [auto|]. rewrite O2 by exact D'. destruct D as [->|D]; [reflexivity|contradiction].
    + intros D. rewrite O2 by tauto. destruct k as [|[]|  | | | | | | | | | | | | | | |]; try reflexivity. exfalso; tauto.
Qed.
Print Assumptions C86_last_word.

(** ** The assumption that no operand is assigned twice
    (InputOutputInfo.py:42).  For a new generator: what the names of all the calls say is what the
    information says, exactly if no two calls say different things about an operand. *)
Lemma says_dec k n j t : says k n j t \/ ~ says k n j t.
Proof.
  unfold says. destruct (named k) as [(w & t')|]; [|right; intros (w & E & _); discriminate].
  assert (P : at_place w n j \/ ~ at_place w n j) by (unfold at_place; destruct w; lia).
  assert (TD : {t = t'} + {t <> t'}) by (repeat decide equality).
  destruct TD as [->|N]; [|right; intros (w' & E & _); congruence].
  destruct P as [P|P]; [left; eauto|right]. intros (w' & E & P'). congruence.
Qed.
Lemma assigns_dec k n j : (exists t, assigns k n j t) \/ forall t, ~ assigns k n j t.
Proof.
  destruct (idle_dec k) as [D|D]; [right; now apply idle_none|]. destruct (named k) as [(w & t)|] eqn:N; [|right; now apply unnamed_none].
  destruct (says_dec k n j t) as [S|S]; [left; exists t; now split|right]. intros t' ((w' & E & P) & _). rewrite N in E. injection E as <- <-.
  apply S. exists w. auto.
Qed.
Lemma last_exists ks n j t0 : exists t, last_word ks n j t0 t.
Proof.
  induction ks as [|k ks (t & IH)]; [exists t0; right; split; [intros k t' []|reflexivity]|].
  destruct IH as [(l & k' & l' & -> & S)|(N & ->)]; [exists t; left; exists (k :: l), k', l'; auto|].
  destruct (assigns_dec k n j) as [(t & A)|A]; [exists t; left; exists [], k, ks; auto|].
  exists t0. right. split; [|reflexivity]. intros k' t' [<-|I]; auto.
Qed.
Lemma says_lt k n j t : says k n j t -> j < n.
Proof. intros (w & _ & P & _). exact P. Qed.
Lemma idle_says k n j t : idle k -> says k n j t -> t = SI.
Proof. intros [<-|[<-|[<-|[]]]] (w & E & _); cbn in E; injection E as <- <-; reflexivity. Qed.
Theorem C86_names_iff : forall inv ks fot n i, call_ios inv ks (new_io_info fot n) = Ok i ->
  ((forall k j t, In k ks -> says k n j t -> nth_error (operand_list_typer i) j = Some t) <-> consistent ks n).
Proof.
  intros inv ks fot n i E. destruct (C86_last_word inv ks _ i E) as (_ & L & W & _). cbn [new_io_info operand_list_typer] in *. rewrite repeat_length in *. split.
  - intros H k k' j t t' I I' S S'. apply (H k) in S; [|exact I]. apply (H k') in S'; [|exact I']. congruence.
  - intros C k j t I S. assert (J := says_lt _ _ _ _ S). apply (W j SI); [now apply nth_repeat_lt|].
    destruct (last_exists ks n j SI) as (t' & LW). destruct LW as [(l & k' & l' & -> & A & N)|(N & ->)].
    + assert (t = t') as -> by (apply (C k k' j); auto; [apply in_or_app; right; now left|apply A]). left. exists l, k', l'. auto.
    + right. split; [exact N|]. destruct (idle_dec k) as [D|D]; [now apply (idle_says k n j)|]. destruct (N k t I). now split.
Qed.
Print Assumptions C86_names_iff.
(** Then the order of the calls does not matter either. *)
Theorem C86_order : forall inv ks ks' fot n, consistent ks n -> Permutation ks ks' ->
  call_ios inv ks (new_io_info fot n) = call_ios inv ks' (new_io_info fot n).
Proof.
  intros inv ks ks' fot n C P. assert (P' := Permutation_sym P).
  assert (C' : consistent ks' n) by (intros k k' j t t' I I'; apply C; now apply (Permutation_in _ P')).
  destruct (call_ios inv ks (new_io_info fot n)) as [i|e] eqn:E.
  2:{ apply C86_raises in E as (-> & N & k & I & X). symmetry. apply C86_raises. repeat split; auto. exists k. split; [now apply (Permutation_in _ P)|exact X]. }
  destruct (call_ios inv ks' (new_io_info fot n)) as [i'|e] eqn:E'.
  2:{ apply C86_raises in E' as (-> & N & k & I & X). exfalso. assert (R : call_ios inv ks (new_io_info fot n) = Raise IndexError); [|congruence].
      apply C86_raises. repeat split; auto. exists k. split; [now apply (Permutation_in _ P')|exact X]. }
  f_equal. destruct (C86_last_word _ _ _ _ E) as (F & L & W & I1 & I2 & O1 & O2), (C86_last_word _ _ _ _ E') as (F' & L' & W' & I1' & I2' & O1' & O2').
  assert (IN : forall x, In x ks <-> In x ks') by (intros x; split; apply Permutation_in; assumption).
  assert (DI : declares_stdin inv ks <-> declares_stdin inv ks') by (unfold declares_stdin; now rewrite !IN).
  pose proof (proj2 (C86_names_iff _ _ _ _ _ E) C) as H. pose proof (proj2 (C86_names_iff _ _ _ _ _ E') C') as H'.
  cbn [new_io_info operand_list_typer flagoption_list_typer implicit_input implicit_output] in *. rewrite repeat_length in *.
  assert (OPS : operand_list_typer i = operand_list_typer i').
  { apply nth_error_ext_eq; [congruence|]. intros j. destruct (Nat.lt_ge_cases j n) as [J|J].
    2:{ transitivity (@None typer); [|symmetry]; apply nth_error_None; lia. }
    assert (Q : (exists k t, In k ks /\ assigns k n j t) \/ forall k t, In k ks -> ~ assigns k n j t).
    { clear - ks. induction ks as [|k ks IH]; [right; intros k t []|]. destruct IH as [(k' & t & I & A)|N]; [left; exists k', t; cbn; auto|].
      destruct (assigns_dec k n j) as [(t & A)|A]; [left; exists k, t; cbn; auto|right]. intros k' t [<-|I]; auto. }
    destruct Q as [(k & t & I & A)|N].
    - rewrite (H k j t) by (auto; apply A). symmetry. apply (H' k j t); [now apply IN|apply A].
    - assert (R : nth_error (repeat SI n) j = Some SI) by now apply nth_repeat_lt.
      transitivity (Some SI); [apply (W j SI R)|symmetry; apply (W' j SI R)]; right; (split; [|reflexivity]); [exact N|]. intros k t I. apply N. now apply IN. }
  assert (IM : implicit_input i = implicit_input i').
  { assert (D : declares_stdin inv ks \/ ~ declares_stdin inv ks).
      { apply declares_dec. }
    destruct D as [D|D]; [rewrite I1 by exact D|rewrite I2 by exact D]; symmetry; [apply I1'|apply I2']; now rewrite <- DI. }
  assert (OM : implicit_output i = implicit_output i').
  { destruct (in_dec helper_dec (Stdout true) ks) as [D|D]; [rewrite O1 by exact D|rewrite O2 by exact D]; symmetry; [apply O1'|apply O2']; now rewrite <- IN. }
  destruct i, i'; cbn in *. congruence.
Qed.
Print Assumptions C86_order.

(** ** The whole way
    A command is registered newly with a class whose [generate_info] makes consistent calls, and
    the options of an invocation are declared in its data.  If there are operands, or no helper
    wants one, the invocation gets information, and applying it gives: every operand as the names
    of the calls say, streaming inputs where they say nothing; standard input and output as
    declared; and the flags and options as for any generator. *)
Lemma apply_read_as s t : simple t -> apply_typer_to_arg s t = Ok (read_as t s).
Proof.
  unfold simple. intros [->|[->|[->|[->|[->| ->]]]]]; cbn; unfold in_file, out_file, compute_actual_el_for_input, compute_actual_el_for_output; reflexivity.
Qed.
Lemma says_simple k n j t : says k n j t -> simple t.
Proof. intros (w & E & _). unfold simple. destruct k; cbn in E; try discriminate; injection E as <- <-; auto 10. Qed.
Lemma built_simple inv ks fot n i : call_ios inv ks (new_io_info fot n) = Ok i -> length (operand_list_typer i) = n /\ Forall simple (operand_list_typer i).
Proof.
  intros E. destruct (C86_last_word _ _ _ _ E) as (_ & L & W & _). cbn [new_io_info operand_list_typer] in *. rewrite repeat_length in *. split; [exact L|].
  apply Forall_forall. intros t I. apply In_nth_error in I as (j & J). assert (JN : j < n) by (rewrite <- L; apply nth_error_Some; congruence).
  apply (W j SI) in J; [|now apply nth_repeat_lt]. destruct J as [(l & k & l' & _ & (S & _) & _)|(_ & ->)]; [now apply says_simple in S|unfold simple; auto].
Qed.
Lemma apply_all ops ts : length ts = length ops -> Forall simple ts ->
  map_result (fun p => apply_typer_to_arg (fst p) (snd p)) (combine ops ts) = Ok (map (fun p => read_as (snd p) (fst p)) (combine ops ts)).
Proof.
  revert ts. induction ops as [|o ops IH]; intros [|t ts] L F; cbn in L; try discriminate; [reflexivity|]. inversion F; subst.
  cbn [combine map_result map fst snd]. rewrite apply_read_as by assumption. cbn [bind]. rewrite IH by (auto; lia). reflexivity.
Qed.
Theorem C86_registered : forall cls (run : cls -> invocation -> result io_info) k p l1 l2 cmd r c (g : invocation -> list io_helper) dir inv i0,
  ~ In cmd (map fst l1) -> cmd_name inv = cmd -> (exists im, import_generators p (l1 ++ (cmd, r) :: l2) = Imported im) ->
  class_in p k r c -> (forall inv, run c inv = let! i := init_io_info dir inv in call_ios inv (g inv) i) -> init_io_info dir inv = Ok i0 ->
  consistent (g inv) (length (operand_list inv)) -> (operand_list inv = [] -> Forall (fun h => ~ indexed h) (g inv)) ->
  exists i v, answer run k p (l1 ++ (cmd, r) :: l2) inv = Some i /\ apply_io_info i inv = Ok v /\
    length (io_operand_list v) = length (operand_list inv) /\
    (forall j x, nth_error (operand_list inv) j = Some x ->
       (forall h t, In h (g inv) -> says h (length (operand_list inv)) j t -> nth_error (io_operand_list v) j = Some (read_as t x)) /\
       ((forall h t, In h (g inv) -> ~ says h (length (operand_list inv)) j t) -> nth_error (io_operand_list v) j = Some (in_file STREAM_INPUT x))) /\
    stdin_iff v (declares_stdin inv (g inv)) /\ stdout_iff v (In (Stdout true) (g inv)) /\
    Forall2 fo_reading (flag_option_list inv) (io_flag_option_list v).
Proof.
  intros cls run k p l1 l2 cmd r c g dir inv i0 NI CN IM CI R E0 CS ZO.
  unfold init_io_info in E0. destruct (get_flagoption_list_typer dir inv) as [fot|] eqn:FT; [|discriminate]. cbn in E0. injection E0 as <-.
  assert (OK : exists i, call_ios inv (g inv) (new_io_info fot (length (operand_list inv))) = Ok i).
  { destruct (call_ios inv (g inv) (new_io_info fot (length (operand_list inv)))) as [i|e] eqn:E; [eauto|]. exfalso.
    apply C86_raises in E as (_ & Z & h & I & X). cbn in Z. destruct (operand_list inv) as [|o l]; [|discriminate].
    specialize (ZO eq_refl). rewrite Forall_forall in ZO. now apply (ZO h I). }
  destruct OK as (i & E). exists i. destruct (built_simple _ _ _ _ _ E) as (LN & SM).
  destruct (C86_last_word _ _ _ _ E) as (F & _ & W & I1 & I2 & O1 & O2). cbn [new_io_info operand_list_typer flagoption_list_typer implicit_input implicit_output] in *.
  destruct (typer_always_applies _ _ _ FT) as (fos & AF). unfold apply_flagoptions in AF.
  eexists. split; [|split].
  - apply C74_new; auto. exists c. split; [exact CI|]. rewrite R. unfold init_io_info. rewrite FT. exact E.
  - unfold apply_io_info. rewrite F, AF. cbn [bind]. rewrite apply_all by assumption. cbn [bind]. reflexivity.
  - cbn [io_operand_list io_flag_option_list]. split; [rewrite map_length, combine_length; lia|]. split; [|split; [|split]].
    + intros j x X. assert (J : j < length (operand_list inv)) by (apply nth_error_Some; congruence).
      assert (NE : forall t, nth_error (operand_list_typer i) j = Some t ->
        nth_error (map (fun p => read_as (snd p) (fst p)) (combine (operand_list inv) (operand_list_typer i))) j = Some (read_as t x)).
      { intros t T. rewrite nth_error_map. assert (Q : nth_error (combine (operand_list inv) (operand_list_typer i)) j = Some (x, t)); [|now rewrite Q].
        clear - X T. revert j X T. generalize (operand_list_typer i) as ts, (operand_list inv) as os. intros ts os. revert ts. induction os as [|o os IH]; intros [|t' ts] [|j] X T; cbn in *; try discriminate; [congruence|now apply IH]. }
      split; [intros h t I S; apply NE; now apply (proj2 (C86_names_iff _ _ _ _ _ E) CS h)|].
      intros N. apply (NE SI). rewrite repeat_length in W. apply (W j SI); [now apply nth_repeat_lt|]. right. split; [|reflexivity]. intros h t I (S & _). now apply (N h t I).
    + unfold stdin_iff. cbn [io_implicit_input]. assert (D : declares_stdin inv (g inv) \/ ~ declares_stdin inv (g inv)).
      { apply declares_dec. }
      destruct D as [D|D]; [left|right]; auto.
    + unfold stdout_iff. cbn [io_implicit_output]. destruct (in_dec helper_dec (Stdout true) (g inv)) as [D|D]; [left|right]; auto.
    + assert (Q : apply_io_info i inv = Ok (mkInvIO (cmd_name inv) fos (map (fun p => read_as (snd p) (fst p)) (combine (operand_list inv) (operand_list_typer i))) (implicit_input i) (implicit_output i))).
      { unfold apply_io_info. rewrite F, AF. cbn [bind]. rewrite apply_all by assumption. reflexivity. }
      apply C14_dash in Q as (_ & Q). cbn [io_flag_option_list] in Q. rewrite F in Q.
      assert (LF : length fot = length (flag_option_list inv)) by (apply (typer_length _ _ _ FT)). rewrite LF, firstn_all in Q. exact Q.
Qed.
Print Assumptions C86_registered.

(** ** What can be said with the helpers at all *)
Definition typer_eqb (a b : typer) : bool := if (ltac:(repeat decide equality) : {a = b} + {a <> b}) then true else false.
Lemma typer_eqb_eq a b : typer_eqb a b = true <-> a = b.
Proof. unfold typer_eqb. destruct (_ : {a = b} + {a <> b}); split; congruence. Qed.
Definition tin (t : typer) (l : list typer) : bool := existsb (typer_eqb t) l.
Lemma tin_iff t l : tin t l = true <-> In t l.
Proof.
  unfold tin. rewrite existsb_exists. split; [intros (x & I & E); apply typer_eqb_eq in E as ->; exact I|intros I; exists t; split; [exact I|now apply typer_eqb_eq]].
Qed.
Definition e2 (f l : typer) : bool :=
  (tin f [SI; ARGSTRING; CI] && tin l [SI; SO; OO]) || (tin f [SI; SO; OI; OO; ARGSTRING; CI] && tin l [SO; OI; OO]) ||
  (tin f [OI; ARGSTRING; CI] && tin l [SI; SO; OI; OO; ARGSTRING]).
Definition e3 (f m l : typer) : bool :=
  (typer_eqb m SI && (tin f [SI; ARGSTRING; CI] && tin l [SI; SO; OO])) ||
  (typer_eqb m SO && (tin f [SI; SO; OI; OO; ARGSTRING; CI] && tin l [SO; OO])) ||
  (typer_eqb m OI && (tin f [SI; SO; OI; OO; ARGSTRING; CI] && tin l [SO; OI; OO])) ||
  (typer_eqb m OI && (tin f [OI; ARGSTRING; CI] && tin l [SI; SO; OI; OO; ARGSTRING])) ||
  (typer_eqb m OO && (tin f [OO; ARGSTRING; CI] && tin l [SO; OO])) ||
  (typer_eqb m ARGSTRING && (tin f [ARGSTRING; CI] && tin l [SO; OO; ARGSTRING])).
Lemma e2_iff f l : e2 f l = true <-> expressible2 f l.
Proof. unfold e2, expressible2. rewrite !orb_true_iff, !andb_true_iff, !tin_iff. tauto. Qed.
Lemma e3_iff f m l : e3 f m l = true <-> expressible3 f m l.
Proof. unfold e3, expressible3. rewrite !orb_true_iff, !andb_true_iff, !tin_iff, !typer_eqb_eq. tauto. Qed.
Definition classes : list typer := [SI; SO; OI; OO; ARGSTRING; CI].
Definition operand_calls : list io_helper :=
  [AllStreamIn; AllStreamOut; AllOtherIn; AllOtherOut; ButLastStreamIn; ButLastOtherIn; ButFirstStreamIn; ButFirstStreamOut; ButFirstOtherIn;
   LastStreamOut; LastOtherOut; AllConfigString; FirstConfigString; FirstConfigFile; AllArgString].
(** The effect on the first operand, those in between and the last *)
Definition act (k : io_helper) (x : typer * typer * typer) : typer * typer * typer :=
  let '(f, m, l) := x in
  if in_dec helper_dec k [AllStreamIn; ButLastStreamIn; ButFirstStreamIn] then x else
  match named k with
  | None => x
  | Some (All, t) => (t, t, t)
  | Some (OnlyFirst, t) => (t, m, l)
  | Some (OnlyLast, t) => (f, m, t)
  | Some (ButFirst, t) => (f, t, t)
  | Some (ButLast, t) => (t, t, l)
  end.
Definition shape (x : typer * typer * typer) (n : nat) : list typer := let '(f, m, l) := x in f :: repeat m n ++ [l].
Lemma repeat_end {A} (t : A) n : repeat t n ++ [t] = repeat t (S n).
Proof. induction n as [|n IH]; [reflexivity|]. cbn [repeat app]. now rewrite IH. Qed.
Lemma shape_length x n : length (shape x n) = S (S n).
Proof. destruct x as ((f & m) & l). cbn. rewrite app_length, repeat_length. cbn. lia. Qed.
Lemma shape_last f m l n : removelast (shape (f, m, l) n) = f :: repeat m n.
Proof. change (removelast ((f :: repeat m n) ++ [l]) = f :: repeat m n). apply removelast_last. Qed.
Lemma shape_all t n : shape (t, t, t) n = repeat t (S (S n)).
Proof. cbn. now rewrite repeat_end. Qed.
Lemma act_call inv k i x n : operand_list_typer i = shape x n -> exists i', call_io inv k i = Ok i' /\ operand_list_typer i' = shape (act k x) n /\ flagoption_list_typer i' = flagoption_list_typer i.
Proof.
  intros E. destruct x as ((f & m) & l).
  assert (SA : forall t, operand_list_typer (set_all t i) = shape (t, t, t) n).
  { intros t. cbn [set_all with_operand_typer operand_list_typer]. rewrite E, shape_length, shape_all. reflexivity. }
  assert (SF : forall i f m l t, operand_list_typer i = shape (f, m, l) n -> set_first t i = Ok (with_operand_typer i (shape (t, m, l) n))) by (intros i1 f1 m1 l1 t E1; unfold set_first; now rewrite E1).
  assert (SL : forall i f m l t, operand_list_typer i = shape (f, m, l) n -> set_last t i = Ok (with_operand_typer i (shape (f, m, t) n))).
  { intros i1 f1 m1 l1 t E1. unfold set_last. rewrite E1. transitivity (Ok (with_operand_typer i1 (removelast (shape (f1, m1, l1) n) ++ [t]))); [reflexivity|]. now rewrite shape_last. }
  assert (GF : get_first i = Ok f) by (unfold get_first; now rewrite E).
  assert (GL : get_last i = Ok l).
  { unfold get_last. rewrite E. unfold shape. f_equal. apply last_last. }
  destruct k; cbn [call_io]; try (eexists; split; [reflexivity|]; split; [first [exact E|apply SA]|reflexivity]).
  - eexists. split; [reflexivity|]. destruct value; split; try exact E; reflexivity.
  - eexists. split; [reflexivity|]. destruct value; split; try exact E; reflexivity.
  - eexists. split; [reflexivity|]. unfold if_no_operands_given_stdin_implicitly_used. destruct (Nat.eqb _ 0); split; try exact E; reflexivity.
  - unfold all_but_last_operand_is_other_input. rewrite GL. cbn [bind]. erewrite SL by apply SA. eexists. split; [reflexivity|]. split; reflexivity.
  - unfold all_but_first_operand_is_streaming_output. rewrite GF. cbn [bind]. erewrite SF by apply SA. eexists. split; [reflexivity|]. split; reflexivity.
  - unfold all_but_first_operand_is_other_input. rewrite GF. cbn [bind]. erewrite SF by apply SA. eexists. split; [reflexivity|]. split; reflexivity.
  - unfold only_last_operand_is_stream_output. erewrite SL by exact E. eexists. split; [reflexivity|]. split; reflexivity.
  - unfold only_last_operand_is_other_output. erewrite SL by exact E. eexists. split; [reflexivity|]. split; reflexivity.
  - unfold set_first_operand_as_config_arg_type_string. erewrite SF by exact E. eexists. split; [reflexivity|]. split; reflexivity.
  - unfold set_first_operand_as_config_arg_type_filename_or_std_descriptor. erewrite SF by exact E. eexists. split; [reflexivity|]. split; reflexivity.
Qed.
Lemma act_calls inv ks : forall i x n, operand_list_typer i = shape x n ->
  exists i', call_ios inv ks i = Ok i' /\ operand_list_typer i' = shape (fold_left (fun x k => act k x) ks x) n.
Proof.
  induction ks as [|k ks IH]; intros i x n E; [exists i; auto|]. cbn [call_ios fold_left].
  destruct (act_call inv k i x n E) as (i1 & -> & E1 & _). cbn [bind]. now apply IH.
Qed.
Lemma act_none k x : ~ In k operand_calls -> act k x = x.
Proof. intros N. destruct x as ((f & m) & l). destruct k; try reflexivity; exfalso; apply N; cbn; tauto. Qed.
Definition closed2 : bool := forallb (fun k => forallb (fun f => forallb (fun m => forallb (fun l =>
  implb (e2 f l) (let '(f', _, l') := act k (f, m, l) in e2 f' l')) classes) classes) classes) operand_calls.
Definition closed3 : bool := forallb (fun k => forallb (fun f => forallb (fun m => forallb (fun l =>
  implb (e3 f m l) (let '(f', m', l') := act k (f, m, l) in e3 f' m' l')) classes) classes) classes) operand_calls.
Lemma closed2_ok : closed2 = true. Proof. vm_compute. reflexivity. Qed.
Lemma closed3_ok : closed3 = true. Proof. vm_compute. reflexivity. Qed.
Lemma in_classes3 f m l : e3 f m l = true -> In f classes /\ In m classes /\ In l classes.
Proof. rewrite e3_iff. unfold expressible3, classes. cbn [In]. intuition (subst; auto 10). Qed.
Lemma in_classes2 f l : e2 f l = true -> In f classes /\ In l classes.
Proof. rewrite e2_iff. unfold expressible2, classes. cbn [In]. intuition (subst; auto 10). Qed.
Lemma act3 k f m l : e3 f m l = true -> let '(f', m', l') := act k (f, m, l) in e3 f' m' l' = true.
Proof.
  intros E. destruct (in_dec helper_dec k operand_calls) as [I|N]; [|now rewrite act_none]. destruct (in_classes3 _ _ _ E) as (F & M & L).
  pose proof closed3_ok as C. unfold closed3 in C. rewrite forallb_forall in C. specialize (C k I). rewrite forallb_forall in C. specialize (C f F).
  rewrite forallb_forall in C. specialize (C m M). rewrite forallb_forall in C. specialize (C l L). rewrite E in C. destruct (act k (f, m, l)) as ((f' & m') & l'). exact C.
Qed.
Lemma act2 k f m l : In m classes -> e2 f l = true -> let '(f', m', l') := act k (f, m, l) in In m' classes /\ e2 f' l' = true.
Proof.
  intros M E. destruct (in_dec helper_dec k operand_calls) as [I|N]; [|now rewrite act_none]. destruct (in_classes2 _ _ E) as (F & L).
  pose proof closed2_ok as C. unfold closed2 in C. rewrite forallb_forall in C. specialize (C k I). rewrite forallb_forall in C. specialize (C f F).
  rewrite forallb_forall in C. specialize (C m M). rewrite forallb_forall in C. specialize (C l L). rewrite E in C.
  assert (In (snd (fst (act k (f, m, l)))) classes).
  { unfold act. destruct (in_dec _ _ _); [exact M|]. destruct (named k) as [([] & t)|] eqn:N; try exact M; destruct k; cbn in N; try discriminate; injection N as <-; cbn; tauto. }
  destruct (act k (f, m, l)) as ((f' & m') & l'). auto.
Qed.
(** Some sequence of calls for each of them *)
Fixpoint sequences (n : nat) : list (list io_helper) :=
  match n with 0 => [[]] | S n => [] :: flat_map (fun ks => map (fun k => k :: ks) [AllStreamOut; AllOtherIn; AllOtherOut; ButLastOtherIn; ButFirstStreamOut; ButFirstOtherIn; LastStreamOut; LastOtherOut; AllArgString; FirstConfigString; FirstConfigFile]) (sequences n) end.
Definition all3 : list (typer * typer * typer) := Eval vm_compute in map (fun ks => fold_left (fun x k => act k x) ks (SI, SI, SI)) (sequences 4).
Definition triple_eqb (x y : typer * typer * typer) : bool := let '(f, m, l) := x in let '(f', m', l') := y in typer_eqb f f' && typer_eqb m m' && typer_eqb l l'.
Definition reached3 : bool := forallb (fun f => forallb (fun m => forallb (fun l => implb (e3 f m l) (existsb (triple_eqb (f, m, l)) all3)) classes) classes) classes.
Definition reached2 : bool := forallb (fun f => forallb (fun l => implb (e2 f l) (existsb (fun x => let '(f', _, l') := x in typer_eqb f f' && typer_eqb l l') all3)) classes) classes.
Lemma reached3_ok : reached3 = true. Proof. vm_compute. reflexivity. Qed.
Lemma reached2_ok : reached2 = true. Proof. vm_compute. reflexivity. Qed.
Lemma reached_by3 f m l : e3 f m l = true -> exists ks, fold_left (fun x k => act k x) ks (SI, SI, SI) = (f, m, l).
Proof.
  intros E. destruct (in_classes3 _ _ _ E) as (F & M & L). pose proof reached3_ok as C. unfold reached3 in C. rewrite forallb_forall in C. specialize (C f F).
  rewrite forallb_forall in C. specialize (C m M). rewrite forallb_forall in C. specialize (C l L). rewrite E in C. cbn [implb] in C.
  apply existsb_exists in C as (((f' & m') & l') & I & Q). cbn in Q. apply andb_true_iff in Q as (Q & Q3). apply andb_true_iff in Q as (Q1 & Q2).
  apply typer_eqb_eq in Q1 as <-, Q2 as <-, Q3 as <-. change all3 with (map (fun ks => fold_left (fun x k => act k x) ks (SI, SI, SI)) (sequences 4)) in I.
  apply in_map_iff in I as (ks & R & _). eauto.
Qed.
Lemma reached_by2 f l : e2 f l = true -> exists ks m, fold_left (fun x k => act k x) ks (SI, SI, SI) = (f, m, l).
Proof.
  intros E. destruct (in_classes2 _ _ E) as (F & L). pose proof reached2_ok as C. unfold reached2 in C. rewrite forallb_forall in C. specialize (C f F).
  rewrite forallb_forall in C. specialize (C l L). rewrite E in C. cbn [implb] in C.
  apply existsb_exists in C as (((f' & m') & l') & I & Q). apply andb_true_iff in Q as (Q1 & Q3).
  apply typer_eqb_eq in Q1 as <-, Q3 as <-. change all3 with (map (fun ks => fold_left (fun x k => act k x) ks (SI, SI, SI)) (sequences 4)) in I.
  apply in_map_iff in I as (ks & R & _). eauto.
Qed.
Lemma one_call inv k i t : operand_list_typer i = [t] -> exists i' t', call_io inv k i = Ok i' /\ operand_list_typer i' = [t'] /\ (t' = t \/ says k 1 0 t').
Proof.
  intros E. destruct (call_one inv k i) as [(Z & _)|(_ & i' & R & (_ & L & A & U) & _)]; [congruence|]. unfold n_of in *. rewrite E in *. cbn [length] in *. exists i'.
  destruct (operand_list_typer i') as [|t' [|]] eqn:E'; cbn in L; try discriminate. exists t'. split; [exact R|]. split; [reflexivity|].
  destruct (assigns_dec k 1 0) as [(u & AU)|N].
  - right. pose proof (A 0 u AU) as Q. cbn in Q. injection Q as ->. apply AU.
  - left. pose proof (U 0 N) as Q. cbn in Q. now injection Q.
Qed.
Lemma says_class k n j t : says k n j t -> In t classes.
Proof. intros (w & E & _). destruct k; cbn in E; try discriminate; injection E as <- <-; cbn; tauto. Qed.
(** The classes that sequences of calls can give to the operands of an invocation *)
Theorem C86_expressible_iff : forall inv fot ts,
  (exists ks i, call_ios inv ks (new_io_info fot (length ts)) = Ok i /\ operand_list_typer i = ts) <-> expressible ts.
Proof.
  intros inv fot ts. split.
  - intros (ks & i & R & E). destruct (length ts) as [|[|n]] eqn:LN.
    + left. destruct ts; [reflexivity|discriminate].
    + right. left. destruct ts as [|t [|]]; try discriminate. exists t. split; [reflexivity|].
      assert (Q : forall ks i i' u, In u classes -> operand_list_typer i = [u] -> call_ios inv ks i = Ok i' -> forall t, operand_list_typer i' = [t] -> In t classes).
      { clear. induction ks as [|k ks IH]; intros i i' u U E R t T; cbn in R; [injection R as <-; congruence|].
        destruct (one_call inv k i u E) as (i1 & u1 & R1 & E1 & D). rewrite R1 in R. cbn [bind] in R. eapply (IH i1 i' u1); eauto.
        destruct D as [->|D]; [exact U|now apply says_class in D]. }
      eapply (Q ks (new_io_info fot 1) i SI); eauto; cbn; tauto.
    + destruct (act_calls inv ks (new_io_info fot (S (S n))) (SI, SI, SI) n) as (i' & R' & E').
      { cbn [new_io_info operand_list_typer]. symmetry. apply shape_all. }
      rewrite R in R'. injection R' as <-. rewrite E in E'. destruct n as [|n]; right; right; [left|right].
      * assert (Q : forall ks f m l, In m classes -> e2 f l = true -> let '(f', m', l') := fold_left (fun x k => act k x) ks (f, m, l) in In m' classes /\ e2 f' l' = true).
        { clear. induction ks as [|k ks IH]; intros f m l M X; [cbn; auto|]. cbn [fold_left]. pose proof (act2 k f m l M X) as A. destruct (act k (f, m, l)) as ((f1 & m1) & l1).
          destruct A as (A1 & A2). now apply IH. }
        specialize (Q ks SI SI SI ltac:(cbn; tauto) ltac:(vm_compute; reflexivity)). destruct (fold_left _ ks _) as ((f & m) & l). exists f, l. split; [exact E'|]. now apply e2_iff.
      * assert (Q : forall ks f m l, e3 f m l = true -> let '(f', m', l') := fold_left (fun x k => act k x) ks (f, m, l) in e3 f' m' l' = true).
        { clear. induction ks as [|k ks IH]; intros f m l X; [cbn; auto|]. cbn [fold_left]. pose proof (act3 k f m l X) as A. destruct (act k (f, m, l)) as ((f1 & m1) & l1). now apply IH. }
        specialize (Q ks SI SI SI ltac:(vm_compute; reflexivity)). destruct (fold_left _ ks _) as ((f & m) & l). exists f, m, l, n. split; [exact E'|]. now apply e3_iff.
  - intros [->|[(t & -> & I)|[(f & l & -> & X)|(f & m & l & n & -> & X)]]].
    + exists [], (new_io_info fot 0). split; reflexivity.
    + assert (K : exists k, In k [AllStreamIn; AllStreamOut; AllOtherIn; AllOtherOut; AllArgString; FirstConfigFile] /\ exists i, call_ios inv [k] (new_io_info fot 1) = Ok i /\ operand_list_typer i = [t]).
      { destruct I as [<-|[<-|[<-|[<-|[<-|[<-|[]]]]]]]; [exists AllStreamIn|exists AllStreamOut|exists AllOtherIn|exists AllOtherOut|exists AllArgString|exists FirstConfigFile];
          (split; [cbn; tauto|]); eexists; split; reflexivity. }
      destruct K as (k & _ & i & R & E). exists [k], i. auto.
    + apply e2_iff in X. destruct (reached_by2 f l X) as (ks & m & K). exists ks.
      destruct (act_calls inv ks (new_io_info fot 2) (SI, SI, SI) 0 eq_refl) as (i & R & E). exists i. split; [exact R|]. rewrite E, K. reflexivity.
    + apply e3_iff in X. destruct (reached_by3 f m l X) as (ks & K). exists ks.
      assert (LN : length (f :: repeat m (S n) ++ [l]) = S (S (S n))) by apply (shape_length (f, m, l) (S n)). rewrite LN.
      destruct (act_calls inv ks (new_io_info fot (S (S (S n)))) (SI, SI, SI) (S n)) as (i & R & E); [cbn [new_io_info operand_list_typer]; symmetry; apply shape_all|].
      exists i. split; [exact R|]. rewrite E, K. reflexivity.
Qed.
Print Assumptions C86_expressible_iff.
(** So a command whose second of three operands is written and whose others are read, or whose last
    of two operands is a string after a streaming input, cannot be annotated with the helpers. *)
Example C86_not_expressible : ~ expressible [SI; OO; SI] /\ ~ expressible [SI; ARGSTRING] /\ expressible [OI; OI; OI; OO] /\ expressible [CI; SI; SI; SO].
Proof.
  assert (N3 : forall f m l, e3 f m l = false -> ~ expressible [f; m; l]).
  { intros f m l E [H|[(t & H & _)|[(a & b & H & _)|(a & b & c & n & H & X)]]]; try discriminate. apply e3_iff in X. destruct n as [|n].
    - cbn in H. injection H as <- <- <-. congruence.
    - exfalso. apply (f_equal (@length typer)) in H. pose proof (shape_length (a, b, c) (S (S n))) as Q. unfold shape in Q. rewrite Q in H. discriminate. }
  assert (N2 : forall f l, e2 f l = false -> ~ expressible [f; l]).
  { intros f l E [H|[(t & H & _)|[(a & b & H & X)|(a & b & c & n & H & X)]]]; try discriminate; [apply e2_iff in X; injection H as <- <-; congruence|].
    exfalso. apply (f_equal (@length typer)) in H. pose proof (shape_length (a, b, c) (S n)) as Q. unfold shape in Q. rewrite Q in H. discriminate. }
  split; [apply N3; vm_compute; reflexivity|]. split; [apply N2; vm_compute; reflexivity|].
  split; right; right; right; [exists OI, OI, OO, 1|exists CI, SI, SO, 1]; (split; [reflexivity|apply e3_iff; vm_compute; reflexivity]).
Qed.

(** ** Cases *)
(** Inconsistent calls: the later one wins, except that a call for streaming inputs has no effect
    even as the last one, although its name says so. *)
Theorem C86_idle_refuted : exists ks i, call_ios (mkInv "cp" [] ["a"; "b"]) ks (new_io_info [] 2) = Ok i /\ ~ consistent ks 2 /\
  last ks AllArgString = AllStreamIn /\ operand_list_typer i = [OO; OO].
Proof.
  exists [AllOtherOut; AllStreamIn]. eexists. split; [vm_compute; reflexivity|]. split; [|split; reflexivity].
  intros C. specialize (C AllOtherOut AllStreamIn 0 OO SI ltac:(cbn; tauto) ltac:(cbn; tauto)). enough (OO = SI) by discriminate.
  apply C; eexists; (split; [reflexivity|]); split; cbn; auto; lia.
Qed.
Print Assumptions C86_idle_refuted.
(** A copying command: sources, one destination, standard input if nothing is given *)
Definition cp_calls : list io_helper := [ButLastOtherIn; LastOtherOut; Stdout true; NoOperandsStdin].
Example C86_case : forall n, consistent cp_calls n /\
  (exists i, call_ios (mkInv "cp" [] ["a"; "-"; "c"]) cp_calls (new_io_info [] 3) = Ok i /\ operand_list_typer i = [OI; OI; OO] /\
     implicit_input i = None /\ implicit_output i = Some stdout) /\
  call_ios (mkInv "cp" [] []) cp_calls (new_io_info [] 0) = Raise IndexError.
Proof.
  intros n. split; [|split; [eexists; split; [vm_compute; reflexivity|repeat split]|reflexivity]].
  intros k k' j t t' I I' (w & N & P) (w' & N' & P'). unfold at_place in *.
  destruct I as [<-|[<-|[<-|[<-|[]]]]], I' as [<-|[<-|[<-|[<-|[]]]]]; cbn in N, N'; try discriminate; injection N as <- <-; injection N' as <- <-; try reflexivity; lia.
Qed.
(** The command export has data but no generator: it can be added. *)
Definition export_calls (inv : invocation) : list io_helper := [FirstConfigFile; ButFirstStreamIn; Stdout true].
Definition export_package : package generator_class :=
  with_module repository_modules (module_name InputOutput "Export")
    (Present [("InputOutputInfoGeneratorExport", IOClass (fun inv => call_ios inv (export_calls inv)))]).
Example C86_registered_case :
  let table := cmd_representation ++ [("export", "Export")] in let c := IOClass (fun inv => call_ios inv (export_calls inv)) in
  let inv := mkInv "export" [Flag "-p"] ["-"; "b"] in
  ~ In "export" (map fst cmd_representation) /\ (exists im, import_generators export_package table = Imported im) /\
  class_in export_package InputOutput "Export" c /\
  (forall inv, run_io shipped_dir c inv = let! i := init_io_info shipped_dir inv in call_ios inv (export_calls inv) i) /\
  (exists i0, init_io_info shipped_dir inv = Ok i0) /\ consistent (export_calls inv) (length (operand_list inv)) /\
  exists i v, answer (run_io shipped_dir) InputOutput export_package table inv = Some i /\ apply_io_info i inv = Ok v /\
    io_operand_list v = [in_file CONFIG_INPUT "-"; in_file STREAM_INPUT "b"] /\ io_implicit_input v = None /\ io_implicit_output v = Some stdout.
Proof.
  cbv zeta. split; [cbn; intuition discriminate|]. split; [eexists; vm_compute; reflexivity|]. split; [eexists; split; vm_compute; reflexivity|].
  split; [reflexivity|]. split; [eexists; vm_compute; reflexivity|]. split.
  - intros k k' j t t' I I' (w & N & P) (w' & N' & P'). unfold at_place in *.
    destruct I as [<-|[<-|[<-|[]]]], I' as [<-|[<-|[<-|[]]]]; cbn in N, N'; try discriminate; injection N as <- <-; injection N' as <- <-; try reflexivity; lia.
  - do 2 eexists. split; [vm_compute; reflexivity|]. split; [vm_compute; reflexivity|]. repeat split.
Qed.

(** ** The generators of the repository
    All information they give is given by consistent calls too, so their names can be trusted. *)
Definition by_calls (g : generator) : Prop := forall inv i0 i, g inv i0 = Ok i ->
  exists ks, consistent ks (length (operand_list inv)) /\ call_ios inv ks i0 = Ok i.
Lemma one_named ks n : (forall k k', In k ks -> In k' ks -> match named k, named k' with Some (w, t), Some (w', t') => t = t' \/ forall j, at_place w n j -> at_place w' n j -> False | _, _ => True end) -> consistent ks n.
Proof.
  intros H k k' j t t' I I' (w & N & P) (w' & N' & P'). specialize (H k k' I I'). rewrite N, N' in H. destruct H as [H|H]; [exact H|]. exfalso. eauto.
Qed.
Ltac named_calls := apply one_named; intros k k' I I'; cbn [In] in I, I';
  repeat match goal with H : _ \/ _ |- _ => destruct H as [<-|H] | H : False |- _ => destruct H end; cbn [named]; try exact Logic.I; try (left; reflexivity); right; unfold at_place; intros; lia.
Ltac calls ks := exists ks; split; [named_calls|reflexivity].
Lemma shipped_by_calls : Forall (fun e => by_calls (snd e)) io_generator_classes.
Proof.
  unfold io_generator_classes. repeat (apply Forall_cons; [cbn [snd]; intros inv i0 i|]); try apply Forall_nil.
  all: try (unfold io_alt_bigram_aux_reduce; intros [= <-]; calls [AllStreamIn; Stdout true]; fail).
  all: try (unfold io_stdin_stdout; intros [= <-]; calls [Stdin true; Stdout true]; fail).
  all: try (unfold io_cat; intros [= <-]; calls [Stdout true; NoOperandsStdin; AllStreamIn]; fail).
  all: try (unfold io_tr; intros [= <-]; calls [Stdin true; Stdout true; AllConfigString]; fail).
  all: try (unfold io_diff; intros [= <-]; calls [Stdout true; AllStreamIn]; fail).
  all: try (unfold io_rm; intros [= <-]; calls [AllOtherOut]; fail).
  all: try (unfold io_seq; intros [= <-]; calls [Stdout true; AllConfigString]; fail).
  all: try (unfold io_tee; intros [= <-]; calls [Stdin true; Stdout true; AllStreamOut]; fail).
  all: try (unfold io_xargs; intros [= <-]; calls [AllArgString; Stdin true; Stdout true]; fail).
  all: try (unfold io_sort; destruct (contains_one_of inv ["-o"]), (_ && _); cbn [negb]; intros [= <-]; [calls [Stdin true]|calls [AllStreamIn]|calls [Stdout true; Stdin true]|calls [Stdout true; AllStreamIn]]; fail).
  all: try (unfold io_comm; destruct (Nat.eqb _ 2); cbn; [intros [= <-]; calls [Stdout true; AllStreamIn]|discriminate]; fail).
  - unfold io_awk. destruct (contains_one_of inv ["-f"]).
    + destruct (Nat.eqb _ 0); intros [= <-]; [calls [Stdout true; Stdin true]|calls [Stdout true; AllStreamIn]].
    + destruct (set_first_operand_as_config_arg_type_string _) as [i1|] eqn:E; [|discriminate]. cbn [bind].
      destruct (Nat.eqb _ 1); intros [= <-]; [exists [Stdout true; FirstConfigString; Stdin true]|exists [Stdout true; FirstConfigString; ButFirstStreamIn]];
        (split; [named_calls|cbn [call_ios call_io bind]; rewrite E; reflexivity]).
  - unfold io_grep. destruct (contains_one_of inv ["-q"]); cbn [negb]; (destruct (contains_one_of inv ["-e"; "-f"]);
      [destruct (Nat.eqb _ 0); intros [= <-]|destruct (set_first_operand_as_config_arg_type_string _) as [i1|] eqn:E; [|discriminate]; cbn [bind]; destruct (Nat.eqb _ 1); intros [= <-]]).
    + calls [Stdin true].
    + calls [AllStreamIn].
    + exists [FirstConfigString; Stdin true]. split; [named_calls|cbn [call_ios call_io bind]; rewrite E; reflexivity].
    + exists [FirstConfigString; ButFirstStreamIn]. split; [named_calls|cbn [call_ios call_io bind]; rewrite E; reflexivity].
    + calls [Stdout true; Stdin true].
    + calls [Stdout true; AllStreamIn].
    + exists [Stdout true; FirstConfigString; Stdin true]. split; [named_calls|cbn [call_ios call_io bind]; rewrite E; reflexivity].
    + exists [Stdout true; FirstConfigString; ButFirstStreamIn]. split; [named_calls|cbn [call_ios call_io bind]; rewrite E; reflexivity].
  - unfold io_mv. destruct (length _) as [|[|]]; [|intros [= <-]; calls [AllOtherIn]|discriminate].
    destruct (all_but_last_operand_is_other_input i0) as [i1|] eqn:E; [|discriminate]. cbn [bind]. intros E2.
    exists [ButLastOtherIn; LastOtherOut]. split; [named_calls|]. cbn [call_ios call_io bind]. rewrite E. cbn [bind]. now rewrite E2.
  - unfold io_sed. destruct (contains_one_of inv ["-e"; "-f"]); cbn [negb]; [intros [= <-]; calls [Stdin true; Stdout true; AllStreamIn]|].
    destruct (set_first_operand_as_config_arg_type_string _) as [i1|] eqn:E; [|discriminate]. cbn [bind]. intros [= <-].
    exists [Stdin true; Stdout true; FirstConfigString; ButFirstStreamIn]. split; [named_calls|cbn [call_ios call_io bind]; rewrite E; reflexivity].
  - unfold io_set_diff. destruct (Nat.eqb _ 1); [|discriminate]. cbn [assert_ bind]. intros E.
    exists [Stdin true; Stdout true; FirstConfigFile]. split; [named_calls|]. cbn [call_ios call_io bind]. now rewrite E.
  - unfold io_uniq. destruct (Nat.eqb _ 0); [intros [= <-]; calls [Stdin true; Stdout true]|]. destruct (Nat.eqb _ 1); [intros [= <-]; calls [AllStreamIn; Stdout true]|].
    destruct (Nat.eqb _ 2); [|discriminate]. intros E. exists [ButLastStreamIn; LastStreamOut]. split; [named_calls|]. cbn [call_ios call_io bind]. now rewrite E.
  - unfold io_wc. destruct (contains_one_of inv ["--files0-from"]); [discriminate|]. destruct (Nat.eqb _ 0); intros [= <-]; [calls [Stdin true; Stdout true]|calls [AllStreamIn; Stdout true]].
Qed.
Theorem C86_shipped : forall dir inv i, get_input_output_info dir inv = Some i ->
  exists i0 ks, init_io_info dir inv = Ok i0 /\ consistent ks (length (operand_list inv)) /\ call_ios inv ks i0 = Ok i /\ expressible (operand_list_typer i).
Proof.
  unfold get_input_output_info. intros dir inv i E. destruct (dict_get io_generator_classes _) as [g|] eqn:G; [|discriminate]. cbn [bind] in E.
  destruct (init_io_info dir inv) as [i0|] eqn:I0; [|discriminate]. cbn [bind] in E. destruct (g inv i0) as [i1|] eqn:GI; [|discriminate]. cbn in E. injection E as ->.
  assert (B : by_calls g). { unfold dict_get in G. destruct (dict_find _ _) as [g'|] eqn:D; [|discriminate]. injection G as ->. apply dict_find_In' in D.
    pose proof shipped_by_calls as S. rewrite Forall_forall in S. exact (S _ D). }
  destruct (B inv i0 i GI) as (ks & C & R). exists i0, ks. split; [reflexivity|]. split; [exact C|]. split; [exact R|].
  unfold init_io_info in I0. destruct (get_flagoption_list_typer dir inv) as [fot|]; [|discriminate]. cbn in I0. injection I0 as <-.
  apply (C86_expressible_iff inv fot). exists ks, i. split; [|reflexivity]. destruct (C86_last_word _ _ _ _ R) as (_ & L & _). rewrite L. cbn [new_io_info operand_list_typer]. rewrite repeat_length. exact R.
Qed.
Print Assumptions C86_shipped.
Example C86_shipped_case : exists i, get_input_output_info shipped_dir (mkInv "mv" [] ["a"; "b"; "c"]) = Some i /\ operand_list_typer i = [OI; OI; OO].
Proof. eexists. split; vm_compute; reflexivity. Qed.
