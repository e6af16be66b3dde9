(** * Proofs for P_Sem5.v *)
From Coq Require Import Lia.
Require Import Verif.PyBase Verif.JsonData Verif.Parser Verif.Access Verif.IOInfo Verif.IOVars
  Verif.Transformers Verif.ParaTypes Verif.ParaGen Verif.MapperAgg Verif.SpecLists Verif.SpecIO Verif.SpecVars Verif.SpecPara
  Verif.ParserFacts Verif.ParaProps Verif.ShippedData Verif.P_Para Verif.SpecSem Verif.SemFacts Verif.SemRun Verif.SemProps Verif.SemSystem Verif.SpecSem5.

(** ** Nothing selected *)
Lemma at_most_zero l : at_most (Some 0) l = repeat false (length l).
Proof. induction l as [|[] l IH]; cbn; congruence. Qed.
Lemma existsb_false n : existsb (fun x => x) (repeat false n) = false.
Proof. induction n; auto. Qed.
Lemma nth_false n : forall k, nth k (repeat false n) false = false.
Proof. induction n; intros []; cbn; auto. Qed.
Lemma printed_false b a n j : printed b a (repeat false n) j = false.
Proof.
  unfold printed. apply not_true_is_false. intros X. apply existsb_exists in X as (k & _ & X).
  rewrite nth_false in X. discriminate.
Qed.
Lemma print_false show between b a n l : forall j off prev, print_lines show between b a (repeat false n) j off prev l = [].
Proof. induction l as [|x l IH]; intros j off prev; [reflexivity|]. cbn [print_lines]. rewrite printed_false. apply IH. Qed.
Lemma given_two fl a b : given fl [a; b] = given fl [a] || given fl [b].
Proof.
  destruct (given fl [a; b]) eqn:G.
  - apply given_iff in G as (n & [<-|[<-|[]]] & I); symmetry; apply orb_true_iff; [left|right]; apply given_iff; eexists; split; try exact I; now left.
  - rewrite (given_names_sub fl [a; b] [a]), (given_names_sub fl [a; b] [b]); auto; intros x; cbn; tauto.
Qed.
Lemma given_six fl a b c d e f' : given fl [a; b; c; d; e; f'] = false ->
  given fl [a] = false /\ given fl [b] = false /\ given fl [c] = false /\ given fl [d] = false /\ given fl [e] = false /\ given fl [f'] = false.
Proof. intros G. repeat split; revert G; apply given_names_sub; intros x; cbn; tauto. Qed.

(** ** Selected lines are printed as such *)
Fixpoint pluses (s : string) : nat :=
  match s with "" => 0 | String a s' => (if Ascii.eqb a "+" then 1 else 0) + pluses s' end.
Lemma pluses_app a b : pluses (a +++ b) = pluses a + pluses b.
Proof. induction a as [|x a IH]; cbn; [reflexivity|]. rewrite IH. lia. Qed.
Definition total (l : list string) : nat := pluses (unlines l).
Definition ones (l : list bool) : nat := length (filter (fun x => x) l).
Lemma total_app l l' : total (l ++ l') = total l + total l'.
Proof. unfold total, unlines. now rewrite terminated_app, pluses_app. Qed.
Lemma printed_selected b a sel j : nth j sel false = true -> printed b a sel j = true.
Proof.
  intros E. unfold printed. apply existsb_exists. exists j. split.
  - apply in_seq. split; [lia|]. cbn. destruct (Nat.lt_ge_cases j (length sel)); [assumption|]. rewrite nth_overflow in E by assumption. discriminate.
  - rewrite E. cbn [andb]. apply andb_true_iff. split; apply Nat.leb_le; lia.
Qed.
Lemma print_total (show : nat -> nat -> bool -> string -> list string) between b a sel : total between = 0 ->
  (forall j off (s : bool) x, pluses x = 0 -> total (show j off s x) = if s then 1 else 0) ->
  forall l pre sel' off prev, Forall (fun x => pluses x = 0) l -> sel = pre ++ sel' -> length l = length sel' ->
  total (print_lines show between b a sel (length pre) off prev l) = ones sel'.
Proof.
  intros TB TS. induction l as [|x l IH]; intros pre sel' off prev F E L.
  - destruct sel'; [reflexivity|discriminate].
  - destruct sel' as [|y sel']; [discriminate|]. injection L as L. apply Forall_cons_iff in F as (F1 & F2). cbn [print_lines].
    assert (N : nth (length pre) sel false = y) by (rewrite E, app_nth2 by lia; now rewrite Nat.sub_diag).
    specialize (IH (pre ++ [y]) sel'). rewrite app_length, Nat.add_1_r, <- app_assoc in IH.
    destruct (printed b a sel (length pre)) eqn:P.
    + rewrite !total_app, TS, N, IH by assumption. destruct prev as [[]|]; [destruct y..]; cbn [total]; try rewrite TB; unfold ones; cbn; try reflexivity; destruct y; reflexivity.
    + rewrite IH by assumption. assert (y = false) as ->; [|reflexivity].
      destruct y; [|reflexivity]. rewrite printed_selected in P; [discriminate|assumption].
Qed.

(** ** The telling grep *)
Lemma total_show fl ops sel x : pluses x = 0 -> total (grep_show telling_grep fl ops None None sel x) = if sel then 1 else 0.
Proof.
  intros P. unfold total, unlines, terminated. cbn [grep_show telling_grep map joined fold_right]. rewrite !pluses_app, P. destruct sel; reflexivity.
Qed.
Lemma at_most_ones n : forall k, ones (at_most (Some n) (repeat true k)) = Nat.min n k.
Proof.
  induction n as [|n IH]; intros k.
  - rewrite at_most_zero. rewrite repeat_length. cbn. clear. induction k; [reflexivity|exact IHk].
  - destruct k as [|k]; [reflexivity|]. cbn [repeat at_most]. unfold ones in *. cbn [filter length]. rewrite IH. lia.
Qed.
Lemma at_most_length n l : length (at_most n l) = length l.
Proof. revert n. induction l as [|[] l IH]; intros [[|n]|]; cbn; auto. Qed.
Lemma limit_total show between b a m k : total between = 0 ->
  (forall j off (s : bool) x, pluses x = 0 -> total (show j off s x) = if s then 1 else 0) ->
  total (print_lines show between b a (at_most (Some m) (repeat true k)) 0 0 None (repeat "a" k)) = Nat.min m k.
Proof.
  intros TB TS. rewrite <- at_most_ones. apply (print_total show between b a _ TB TS (repeat "a" k) [] _ 0 None).
  - apply Forall_forall. intros x I. apply repeat_spec in I. now subst.
  - reflexivity.
  - now rewrite at_most_length, !repeat_length.
Qed.
Lemma telling_wrong fl ops : given fl ["-q"] = false -> ~ grep_safe fl ->
  exists a b, ends_line a /\ is_text (a +++ b) /\
    grep_output telling_grep fl ops (a +++ b) <> grep_output telling_grep fl ops a +++ grep_output telling_grep fl ops b.
Proof.
  intros GQ NS.
  assert (EA : forall x, ends_line (x +++ String newline "")) by (intros x; right; eauto).
  destruct (given fl ["--help"; "-V"]) eqn:GH.
  { exists "", "". split; [now left|]. split; [reflexivity|]. unfold grep_output. rewrite GH. discriminate. }
  unfold grep_output. rewrite GH, GQ. cbn zeta.
  set (lim := last_number fl ["-m"; "--max-count"]) in *.
  assert (SEL : forall x, xorb (given fl ["-v"]) (grep_match telling_grep fl ops x) = String.prefix "a" x).
  { intros x. cbn. destruct (given fl ["-v"]), (prefix "a" x); reflexivity. }
  destruct (given fl ["-l"]) eqn:Gl.
  { assert (NL : lim <> Some 0) by (intros E; apply NS; split; [exact GH|left; auto]).
    exists "a
", "a
". split; [apply (EA "a")|]. split; [reflexivity|].
    destruct (given fl ["-z"]); cbn -[at_most grep_match]; rewrite !SEL; cbn; destruct lim as [[|[|n]]|]; try congruence; discriminate. }
  destruct (given fl ["-L"]) eqn:GL.
  { exists "b
", "b
". split; [apply (EA "b")|]. split; [reflexivity|].
    destruct (given fl ["-z"]); cbn -[at_most grep_match]; rewrite !SEL; cbn; destruct lim as [[|[|n]]|]; discriminate. }
  destruct (given fl ["-c"]) eqn:Gc.
  { exists "", "". split; [now left|]. split; [reflexivity|]. destruct (given fl ["-z"]); cbn; discriminate. }
  assert (NL : lim <> Some 0).
  { intros E. apply NS. split; [exact GH|left]. split; [exact E|right]. rewrite given_two. now rewrite GL, Gc. }
  cbn zeta.
  assert (BE : total (if Nat.eqb (before fl + after fl) 0 then [] else grep_between telling_grep fl) = 0) by (destruct (Nat.eqb _ 0); reflexivity).
  set (between := if Nat.eqb (before fl + after fl) 0 then [] else grep_between telling_grep fl) in *.
  destruct (given fl ["-z"]) eqn:Gz.
  { exists "a
", "a
". split; [apply (EA "a")|]. split; [reflexivity|].
    cbn -[at_most grep_match]. rewrite !SEL. destruct lim as [[|n]|]; try congruence; cbn;
    destruct (given fl ["-n"]), (given fl ["-b"]); cbn; discriminate. }
  destruct (given fl ["-n"] || given fl ["-b"]) eqn:Gnb.
  { exists "a
", "a
". split; [apply (EA "a")|]. split; [reflexivity|].
    cbn -[at_most grep_match printed]. rewrite !SEL.
    assert (P0 : forall x, printed (before fl) (after fl) (true :: x) 0 = true) by (intros x; now apply printed_selected).
    cbn [prefix ascii_dec]. destruct lim as [[|n]|]; try congruence; cbn -[printed grep_show]; rewrite !P0; cbn -[printed];
      destruct (printed (before fl) (after fl) _ 1); destruct (given fl ["-n"]), (given fl ["-b"]); try discriminate Gnb; cbn; try discriminate; destruct n; discriminate. }
  apply orb_false_iff in Gnb as (Gn & Gb). rewrite Gn, Gb.
  destruct lim as [[|m]|] eqn:EL; [congruence| |].
  - (* a limit *)
    exists (unlines (repeat "a" (S m))), (unlines ["a"]). unfold unlines. rewrite <- terminated_app.
    replace (repeat "a" (S m) ++ ["a"]) with (repeat "a" (S (S m))) by apply (repeat_cons (S m) "a").
    assert (CL : forall k, Forall (fun r => has_char newline r = false) (repeat "a" k)).
    { intros k. apply Forall_forall. intros x I. apply repeat_spec in I. now subst. }
    split; [|split].
    + clear. induction m as [|m IH]; [right; exists "a"; reflexivity|]. change (repeat "a" (S (S m))) with (["a"] ++ repeat "a" (S m)). rewrite terminated_app.
      destruct IH as [E|(t & E)]; [discriminate|]. rewrite E. right. exists ("a" +++ String newline "" +++ t). reflexivity.
    + clear. unfold is_text. induction m as [|m IH]; [reflexivity|exact IH].
    + change ["a"] with (repeat "a" 1). rewrite !records_terminated by apply CL. intros E. apply (f_equal pluses) in E. rewrite pluses_app in E.
      assert (MA : forall k, map (fun x => xorb (given fl ["-v"]) (grep_match telling_grep fl ops x)) (repeat "a" k) = repeat true k).
      { intros k. induction k as [|k IH]; [reflexivity|]. cbn [repeat map]. rewrite SEL, IH. reflexivity. }
      rewrite !MA in E.
      assert (LT : forall k, pluses (terminated newline (print_lines (fun _ _ => grep_show telling_grep fl ops None None) between (before fl) (after fl)
         (at_most (Some (S m)) (repeat true k)) 0 0 None (repeat "a" k))) = Nat.min (S m) k).
      { intros k. apply limit_total; [exact BE|]. intros. now apply total_show. }
      rewrite !LT in E. lia.
  - destruct (after fl) as [|a'] eqn:EA'.
    + destruct (before fl) as [|b'] eqn:EB'.
      * exfalso. apply NS. split; [exact GH|right]. repeat split; auto.
        apply not_true_is_false. intros G. apply given_iff in G as (n & I & J).
        assert (X : given fl [n] = true) by (apply given_iff; exists n; split; [now left|exact J]).
        cbn in I. intuition (subst; congruence).
      * exists "b
", "a
". split; [apply (EA "b")|]. split; [reflexivity|]. cbn -[at_most grep_match]. rewrite !SEL. cbn. discriminate.
    + exists "a
", "b
". split; [apply (EA "a")|]. split; [reflexivity|]. cbn -[at_most grep_match]. rewrite !SEL. cbn. discriminate.
Qed.
Definition telling_system : behaviour :=
  fun _ cmd fl ops inputs => if String.eqb cmd "cat" then joined inputs else grep_output telling_grep fl ops (joined inputs).
Lemma telling_is_grep : is_grep telling_grep telling_system.
Proof. intros seed fl ops input _ _ _. unfold telling_system. cbn [String.eqb Ascii.eqb Bool.eqb joined fold_right]. now rewrite append_nil. Qed.
Lemma telling_is_cat : is_cat telling_system.
Proof. intros seed ops inputs _. reflexivity. Qed.

(** ** Sound *)
Lemma grep_quiet inv p : cmd_name inv = "grep" -> offered shipped_dir inv p -> ~ uses inv "-q".
Proof.
  intros C (i & k & ls & i' & l & G & CA & IL & I). apply (C28_only_sort shipped_dir inv i k ls i' l G) in CA as ->; auto.
  2: { rewrite C. intros [E|[E|[]]]; discriminate. }
  assert (A : annotated shipped_dir inv (Some (parallelizer_list i, is_commutative i))) by (apply C25_exact; now rewrite G).
  destruct (C32_grep_iff _ _ _ _ C A) as (H & _). assert (NE : parallelizer_list i <> []) by (intros E; now rewrite E in I).
  now apply H in NE as (Q1 & _).
Qed.
Lemma grep_safe_sound text inv p c v B o dir :
  parse shipped_dir text = Ok inv -> cmd_name inv = "grep" -> offered shipped_dir inv p ->
  invocation_of inv c -> reads_one c v -> ~ uses_any inv ["-r"; "-R"; "-H"] -> is_grep o B -> is_cat B ->
  (forall s, grep_safe (map (wflag_of c s) (v_flags c))) ->
  parallel_ok B dir p c v (fun n => n <> 0) (fun input => is_text input \/ uses inv "-a").
Proof.
  intros PA C OF IN R U GB CB SA. apply concat_sound; auto.
  { eapply stateless_of; eauto. rewrite C. cbn; auto. }
  pose proof (grep_quiet inv p C OF) as X1.
  intros s. assert (CN : v_cmd c = "grep") by (destruct IN as (-> & _); exact C).
  specialize (SA s). set (fl := map (wflag_of c s) (v_flags c)) in *. set (ops := map (word_of c s) (v_ops c)).
  assert (GQ : given fl ["-q"] = false).
  { apply (given_unused inv); [exact IN|]. intros (n & [<-|[]] & Z). contradiction. }
  destruct SA as (GH & SA).
  assert (FO : exists F, forall x, grep_output o fl ops x = unlines (flat_map F (lines x))).
  { destruct SA as [(LI & G)|(LI & BE & AF & G)].
    - exists (fun _ => []). intros x. assert (E : flat_map (fun _ : string => @nil string) (lines x) = []) by (induction (lines x); auto).
      rewrite E. unfold grep_output. rewrite GH, GQ, LI. cbn zeta. rewrite !at_most_zero, !map_length, existsb_false.
      destruct (given fl ["-l"]) eqn:Gl; [reflexivity|]. destruct G as [G|G]; [discriminate|]. rewrite given_two in G. apply orb_false_iff in G as (-> & ->).
      rewrite print_false. reflexivity.
    - exists (fun x => if xorb (given fl ["-v"]) (grep_match o fl ops x) then grep_show o fl ops None None true x else []). intros x.
      apply given_six in G as (Gl & GL & Gc & Gn & Gb & Gz).
      unfold grep_output. rewrite GH, GQ, LI, BE, AF, Gl, GL, Gc, Gn, Gb, Gz. cbn zeta. cbn [Nat.add Nat.eqb]. rewrite at_most_none. unfold unlines, lines. f_equal.
      apply (print_plain _ (fun x => xorb (given fl ["-v"]) (grep_match o fl ops x)) _ []). }
  destruct FO as (F & FO). eapply record_distributive with (F := F).
  { intros a [A|A] b d ->; [|tauto]. unfold is_text in A. rewrite has_char_app in A. apply orb_false_iff in A. unfold is_text. tauto. }
  intros sd x QX. rewrite CN. fold fl ops. rewrite GB.
  - apply FO.
  - eapply parse_known; eauto; [rewrite C; left; vm_compute; reflexivity|vm_compute; reflexivity].
  - now apply (given_unused inv).
  - destruct QX as [QX|QX]; [now left|right]. apply given_iff. exists "-a". split; [now left|]. unfold fl. rewrite (names_eq inv c s IN). now apply uses_in.
Qed.
(** ** Complete *)
Lemma grep_unsafe_wrong text inv p c v dir s :
  parse shipped_dir text = Ok inv -> cmd_name inv = "grep" -> offered shipped_dir inv p ->
  invocation_of inv c -> reads_one c v -> tight c ->
  ~ grep_safe (map (wflag_of c s) (v_flags c)) ->
  parallel_wrong telling_system dir p c v (fun n => n <> 0) is_text.
Proof.
  intros PA C OF IN R T NS.
  assert (CN : v_cmd c = "grep") by (destruct IN as (-> & _); exact C).
  assert (S : In p (stateless SpecPara.concat)) by (eapply stateless_of; eauto; rewrite C; cbn; tauto).
  destruct (telling_wrong (map (wflag_of c s) (v_flags c)) (map (word_of c s) (v_ops c))) as (a & b & EA & TX & W); [|exact NS|].
  { apply (given_unused inv); [exact IN|]. intros (n & [<-|[]] & Z). now apply (grep_quiet inv p C OF). }
  apply (concat_wrong telling_system dir p c v is_text s a b R T S telling_is_cat TX EA); rewrite CN; intros sd.
  - split; reflexivity.
  - unfold telling_system. cbn [String.eqb Ascii.eqb Bool.eqb joined fold_right]. rewrite !append_nil. exact W.
Qed.

(** ** sort: a system that shows all differences *)
Definition flip_key (seed : nat) (fl : list wflag) (x y : string) : bool :=
  if random_order fl && negb (Nat.even seed) then bytes_le y x else bytes_le x y.
Definition flip_sort : sort_oracle := mkSortOracle flip_key "usage" (fun _ _ => ["_"]).
Definition flip_system : behaviour :=
  fun seed cmd fl ops inputs => sort_output flip_sort seed fl inputs.
Lemma flip_is_sort : is_sort flip_sort flip_system.
Proof. intros seed fl ops inputs _ _. reflexivity. Qed.
Lemma random_filter fl : random_order (filter (fun f => mem (wflag_name f) ordering_flags) fl) = random_order fl.
Proof.
  unfold random_order. apply existsb_filter. intros [n|n []] X; cbn [random_flag wflag_name] in *; try discriminate.
  - apply String.eqb_eq in X. subst. reflexivity.
  - apply orb_true_iff in X as [X|X]; apply andb_true_iff in X as (X & _); apply String.eqb_eq in X; subst; reflexivity.
Qed.
Lemma flip_sort_ok : sort_oracle_ok flip_sort.
Proof.
  split.
  - intros seed fl. cbn [key_le flip_sort]. unfold flip_key. destruct (random_order fl && negb (Nat.even seed)); split; eauto using bytes_total, bytes_trans.
  - intros seed fl fl' E. cbn [key_le flip_sort]. unfold flip_key. rewrite <- (random_filter fl), <- (random_filter fl'). now rewrite E.
Qed.
Lemma flip_fair : fair flip_sort.
Proof. intros fl R seed seed'. cbn. unfold flip_key. now rewrite R. Qed.

Lemma sort_wrong text inv p c v dir s : 
  parse shipped_dir text = Ok inv -> cmd_name inv = "sort" -> offered shipped_dir inv p ->
  invocation_of inv c -> reads_one c v -> tight c ->
  given (map (wflag_of c s) (v_flags c)) ["--help"; "--version"] = true \/ given (map (wflag_of c s) (v_flags c)) ["--debug"] = true \/
  random_order (map (wflag_of c s) (v_flags c)) = true ->
  parallel_wrong flip_system dir p c v (fun n => n = 2) (fun _ => True).
Proof.
  intros PA C G IN R T BAD.
  destruct (sort_parallelizers inv p C G) as (UX & M & N & A & S).
  set (a := "A
C
"). set (b := "B
D
").
  destruct (fresh_vars c v T) as (z & Z1 & Z2).
  set (s' := connect [v; z; z + 1]%Z [a +++ b; a; b] s).
  set (t := Node (z + 4)%Z 0 [Leaf z (z + 2)%Z 0; Leaf (z + 1)%Z (z + 3)%Z 1]).
  assert (Sv : s' v = a +++ b) by (unfold s'; cbn; now rewrite Z.eqb_refl).
  assert (S1 : s' z = a).
  { unfold s'; cbn. destruct (Z.eqb_spec z v); [lia|]. now rewrite Z.eqb_refl. }
  assert (S2 : s' (z + 1)%Z = b).
  { unfold s'; cbn -[Z.add]. destruct (Z.eqb_spec (z + 1) v); [lia|]. destruct (Z.eqb_spec (z + 1) z); [lia|]. now rewrite Z.eqb_refl. }
  assert (W : map (wflag_of c s') (v_flags c) = map (wflag_of c s) (v_flags c)).
  { apply (words_only c v s' s R). intros w J Nw. apply connect_out. intros [E|[E|[E|[]]]]; [now apply Nw| |]; apply (Z2 w); auto; lia. }
  rewrite <- W in BAD. clear W. 
  set (fl := map (wflag_of c s') (v_flags c)) in *.
  assert (CN : v_cmd c = "sort") by (destruct IN as (-> & _); exact C).
  destruct (mapper_run p c v z (z + 2)%Z R M N) as (m1 & GM1 & W1 & E1); [lia|apply Z2; lia|apply Z2; lia|].
  destruct (mapper_run p c v (z + 1)%Z (z + 3)%Z R M N) as (m2 & GM2 & W2 & E2); [lia|apply Z2; lia|apply Z2; lia|].
  specialize (E1 flip_system 0 s'). specialize (E2 flip_system 1 s'). rewrite S1 in E1. rewrite S2 in E2.
  assert (FS : forall sd cmd fl ops ins, flip_system sd cmd fl ops ins = sort_output flip_sort sd fl ins) by reflexivity.
  rewrite FS in E1, E2. fold fl in E1, E2.
  destruct (sort_run dir c v [z + 2; z + 3]%Z (z + 4)%Z [run flip_system 0 m1 s'; run flip_system 1 m2 s'] R) as (ag & order & GA & WA & KO & EA).
  { repeat constructor; cbn; lia. } { reflexivity. } { reflexivity. } { intros w [<-|[<-|[<-|[]]]]; apply Z2; lia. }
  specialize (EA flip_system 0 s'). rewrite FS in EA. set (fl' := map (wflag_of c s') order ++ [WFlag "-m"]) in *.
  assert (X1 : given fl sort_excluded = false) by (eapply given_unused; eauto).
  assert (SUB : incl (map (wflag_of c s') order) fl).
  { intros w Iw. apply in_map_iff in Iw as (w' & <- & Iw). apply in_map. now apply (kept_in _ _ _ _ KO) in Iw. }
  assert (OF : filter (fun f => mem (wflag_name f) ordering_flags) fl' = filter (fun f => mem (wflag_name f) ordering_flags) fl).
  { apply order_filter; auto. eapply given_names_sub; [|exact X1]. intros w [<-|[<-|[]]]; cbn; auto 10. }
  assert (RO : random_order fl' = random_order fl) by (rewrite <- (random_filter fl'), OF; apply random_filter).
  assert (GR : given fl' ["-r"] = given fl ["-r"]).
  { assert (Y : forall z, given z ["-r"] = given (filter (fun f => mem (wflag_name f) ordering_flags) z) ["-r"]).
    { intros x. unfold given. symmetry. apply existsb_filter. intros f X. cbn in X. apply orb_true_iff in X as [X|X]; [|discriminate]. apply String.eqb_eq in X. rewrite X. reflexivity. }
    rewrite Y, OF, <- Y. reflexivity. }
  assert (GO : forall names, existsb (fun n => mem n sort_order_flags) names = false -> given (map (wflag_of c s') order) names = false).
  { intros names Z. apply not_true_is_false. intros Y. apply given_iff in Y as (n & I1 & I2). apply in_map_iff in I2 as (f & <- & I2). apply in_map_iff in I2 as (f' & <- & I2).
    apply (kept_in _ _ _ _ KO) in I2 as (_ & I2). unfold named in I2. replace (wflag_name (wflag_of c s' f')) with (fe_name f') in I1 by (destruct f'; reflexivity).
    assert (existsb (fun n => mem n sort_order_flags) names = true) by (apply existsb_exists; exists (fe_name f'); split; [exact I1|now apply mem_In]). congruence. }
  assert (GV : forall names, existsb (fun n => mem n sort_order_flags) names = false -> given fl' names = given [WFlag "-m"] names).
  { intros names Z. unfold fl'. rewrite given_app, (GO names Z). reflexivity. }
  assert (XE : forall l, forallb (fun n => mem n sort_excluded) l = true -> given fl l = false).
  { intros l H. eapply given_names_sub; [|exact X1]. intros n I. rewrite forallb_forall in H. apply mem_In. now apply H. }
  exists s', t, (run flip_system 0 ag (connect [z + 2; z + 3]%Z [run flip_system 0 m1 s'; run flip_system 1 m2 s'] s')).
  split; [|split; [|split; [|split; [|split]]]].
  - split.
    + cbn. repeat constructor; cbn; lia.
    + intros w I. apply Z2. cbn in I. lia.
  - cbn. repeat split.
  - exact Logic.I.
  - cbn [t parts map flat_map app]. rewrite S1, S2, Sv.
    assert (CU : cut_at_lines (a +++ b) [a; b]) by (split; [reflexivity|]; constructor; [right; exists "A
C"; reflexivity|constructor]).
    destruct S as [S|S]; rewrite S; [exact CU|]. cbn [distributes]. rewrite (cut_lines _ _ CU). reflexivity.
  - eapply ev_node with (ts := [Leaf z (z + 2)%Z 0; Leaf (z + 1)%Z (z + 3)%Z 1]).
    + eapply ev_cons; [eapply ev_leaf; eauto|eapply ev_cons; [eapply ev_leaf; eauto|constructor]].
    + rewrite A. exact GA.
    + exact WA.
  - intros seed. rewrite EA, E1, E2, (run_original flip_system seed c v s' R), CN, Sv. fold fl. rewrite FS.
    assert (PAR : sort_output flip_sort seed fl [a +++ b] = sort_output flip_sort (if Nat.even seed then 0 else 1) fl [a +++ b]).
    { assert (K : key_le flip_sort seed fl = key_le flip_sort (if Nat.even seed then 0 else 1) fl).
      { cbn. unfold flip_key. destruct (Nat.even seed); reflexivity. }
      unfold sort_output. rewrite K. rewrite (line_le_ext flip_sort seed (if Nat.even seed then 0 else 1) fl fl K); reflexivity. }
    rewrite PAR. clear PAR.
    unfold sort_output. rewrite !(GV ["--help"; "--version"]), !(GV ["-c"; "-C"]), !(GV ["-z"]), !(GV ["-m"]), !(GV ["-u"]), !(GV ["--debug"]) by reflexivity.
    cbn [given existsb wflag_name mem String.eqb Ascii.eqb Bool.eqb orb andb].
    rewrite (XE ["-c"; "-C"]), (XE ["-z"]), (XE ["-m"]), (XE ["-u"]) by reflexivity.
    unfold line_le. rewrite (GV ["-s"; "-u"]), (XE ["-s"; "-u"]), GR by reflexivity. cbn [given existsb wflag_name mem String.eqb Ascii.eqb Bool.eqb orb andb].
    cbn [key_le flip_sort]. unfold flip_key. rewrite RO.
    destruct (given fl ["--help"; "--version"]) eqn:GH.
    + destruct (random_order fl), (given fl ["-r"]); vm_compute; discriminate.
    + destruct BAD as [BAD|BAD]; [discriminate|].
      destruct (random_order fl), (given fl ["--debug"]), (given fl ["-r"]); try (destruct BAD; discriminate);
        destruct (Nat.even seed); vm_compute; discriminate.
Qed.
