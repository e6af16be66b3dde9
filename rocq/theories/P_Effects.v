(** * Theorems about the effects announced by the input/output information (C71) *)
Require Import Verif.PyBase Verif.JsonData Verif.Shlex Verif.Parser Verif.Access Verif.IOInfo Verif.IOGen Verif.ShippedData
  Verif.SpecShlex Verif.ShlexFacts Verif.SpecParser Verif.ParserFacts Verif.SpecIO Verif.IOShipped Verif.P_IO Verif.SpecGetopt Verif.GetoptFacts
  Verif.P_Getopt Verif.SpecEffects Verif.EffectFacts Verif.EffectLists.
From Coq Require Import Lia.

(** ** Nothing a command reads or writes is missing *)
Theorem C71_announced : forall name s os ops inv c,
  In name ["cat"; "comm"; "cut"; "diff"; "head"; "sed"; "seq"; "tail"; "tr"; "uniq"; "wc"; "xargs"] ->
  understood name s os ops inv c -> all_announced name os ops c.
Proof.
  intros name s os ops inv c I U e H.
  assert (X : In name ["cat"; "cut"; "head"; "tail"] -> announced c e).
  { intros J. rewrite (list_cat _ _ _ _ _ _ U e J). cbn in J.
    repeat (destruct J as [<-|J]; [cbn [effects] in H; destruct H as [<-|H]; [tauto|]; apply in_inputs in H; tauto|]). destruct J. }
  cbn in I. repeat (destruct I as [<-|I]; [try (apply X; cbn; tauto); clear X; cbn [effects] in H|]); [..|destruct I].
  - apply (list_comm _ _ _ _ _ _ U e eq_refl). destruct H as [<-|H]; auto.
  - apply (list_diff _ _ _ _ _ _ U e eq_refl). destruct H as [<-|H]; [auto|]. rewrite !in_app_iff in *. tauto.
  - destruct (list_sed _ _ _ _ _ _ U e eq_refl) as (A & B & D & _ & E). apply E. rewrite A, B, D in H. cbn [orb files_after] in H.
    rewrite in_app_iff in H. destruct H as [[<-|H]|H]; [auto|apply in_inputs in H; tauto|].
    assert (V : values os "-f" = []) by (apply (given_values _ _ _ _ _ _ _ U); [vm_compute; reflexivity|exact B]).
    rewrite V in H. destruct H.
  - apply (list_seq _ _ _ _ _ _ U e eq_refl). destruct H as [<-|[]]. auto.
  - apply (list_tr _ _ _ _ _ _ U e eq_refl). cbn in H. intuition congruence.
  - destruct (list_uniq _ _ _ _ _ _ U e eq_refl) as [(-> & E)|[(f & -> & E)|(f & g & -> & E)]]; apply E; cbn in H.
    + intuition congruence.
    + intuition congruence.
    + change (if String.eqb g "-" then WritesStdout else Writes g) with (output g) in H. intuition congruence.
  - destruct (list_wc _ _ _ _ _ _ U e eq_refl) as (G & E). apply E.
    rewrite (proj1 (given_values _ _ _ _ _ _ "--files0-from" U ltac:(vm_compute; reflexivity)) G) in H.
    destruct H as [<-|H]; [auto|]. apply in_inputs in H. tauto.
  - apply (list_xargs _ _ _ _ _ _ U e eq_refl). destruct H as [<-|H]; [auto|].
    destruct (values os "-a") as [|v l]; [cbn in H; intuition congruence|auto].
Qed.
Print Assumptions C71_announced.

(** ** Exactly when nothing is missing, for the other commands *)
Theorem C71_sort_iff : forall s os ops inv c,
  understood "sort" s os ops inv c ->
  (all_announced "sort" os ops c <->
   ~ In "-" (values os "-o" ++ values os "-T" ++ values os "--random-source")).
Proof.
  intros s os ops inv c U. pose proof (fun e => list_sort _ _ _ _ _ _ U e eq_refl) as L. unfold all_announced. cbn [effects].
  split.
  - intros A I. rewrite !in_app_iff in I.
    assert (R : ~ announced c (Writes "-") /\ ~ announced c (Reads "-")).
    { rewrite !L, !in_app_iff, !in_output_file, !in_input_file. split; intros H;
        decompose [and or] H; try congruence; try (now apply in_input_writes in H1); try (now apply in_input_writes in H0);
        try match goal with X : In _ (map _ _) |- _ => first [now apply in_input_writes in X | now apply in_output_reads in X] end. }
    destruct I as [I|[I|I]].
    + apply (proj1 R), A. apply in_or_app. left. destruct (values os "-o") as [|v l]; [destruct I|]. now apply in_map.
    + apply (proj1 R), A. apply in_or_app. right. apply in_or_app. right. apply in_or_app. left. now apply in_map.
    + apply (proj2 R), A. do 3 (apply in_or_app; right). now apply in_map.
  - intros N e H. apply L. rewrite !in_app_iff in *.
    destruct H as [H|[H|[H|H]]].
    + destruct (values os "-o") as [|v l] eqn:V.
      * destruct (_ || _); [destruct H|]. destruct H as [<-|[]]. tauto.
      * apply in_map_iff in H as (f & <- & I). rewrite in_output_file. left. right. left. split; [exact I|]. intros ->. tauto.
    + destruct (values os "--files0-from") as [|v l] eqn:V; [apply in_inputs in H|]; tauto.
    + apply in_map_iff in H as (f & <- & I). rewrite (in_output_file f (values os "-T")). left. right. right. left.
      split; [exact I|]. intros ->. tauto.
    + apply in_map_iff in H as (f & <- & I). rewrite (in_input_file f (values os "--random-source")). left. do 3 right. left.
      split; [exact I|]. intros ->. tauto.
Qed.
Print Assumptions C71_sort_iff.

Theorem C71_tee_iff : forall s os ops inv c,
  understood "tee" s os ops inv c -> (all_announced "tee" os ops c <-> ~ In "-" ops).
Proof.
  intros s os ops inv c U. pose proof (fun e => list_tee _ _ _ _ _ _ U e eq_refl) as L. unfold all_announced. cbn [effects]. split.
  - intros A I. specialize (A (Writes "-") ltac:(right; right; now apply in_map)). rewrite L, in_output_file in A. intuition congruence.
  - intros N e H. apply L. destruct H as [<-|[<-|H]]; [auto|auto|]. apply in_map_iff in H as (f & <- & I). rewrite in_output_file. left.
    split; [exact I|congruence].
Qed.
Print Assumptions C71_tee_iff.

Theorem C71_mkfifo_iff : forall s os ops inv c,
  understood "mkfifo" s os ops inv c -> (all_announced "mkfifo" os ops c <-> ~ In "-" ops).
Proof.
  intros s os ops inv c U. pose proof (fun e => list_rm _ _ _ _ _ _ U e ltac:(cbn; auto)) as L. unfold all_announced. cbn [effects]. split.
  - intros A I. specialize (A (Writes "-") ltac:(now apply in_map)). rewrite L, in_output_file in A. intuition congruence.
  - intros N e H. apply L. apply in_map_iff in H as (f & <- & I). rewrite in_output_file. split; [exact I|congruence].
Qed.
Print Assumptions C71_mkfifo_iff.

Theorem C71_rm_iff : forall s os ops inv c,
  understood "rm" s os ops inv c ->
  (all_announced "rm" os ops c <-> ~ In "-" ops /\ given os "-v" = false /\ rm_asks os ops = false).
Proof.
  intros s os ops inv c U. pose proof (fun e => list_rm _ _ _ _ _ _ U e ltac:(cbn; auto)) as L. unfold all_announced. cbn [effects]. split.
  - intros A.
    assert (N : ~ In "-" ops).
    { intros I. specialize (A (Writes "-") ltac:(apply in_or_app; left; now apply in_map)). rewrite L, in_output_file in A.
      intuition congruence. }
    split; [exact N|]. split.
    + destruct (given os "-v"); [|reflexivity]. specialize (A WritesStdout ltac:(apply in_or_app; right; now left)).
      rewrite L, in_output_stdout in A. tauto.
    + destruct (rm_asks os ops); [|reflexivity]. specialize (A ReadsStdin ltac:(do 2 (apply in_or_app; right); now left)).
      rewrite L in A. now apply in_output_stdin in A.
  - intros (N & -> & ->) e H. cbn [app] in H. rewrite app_nil_r in H. apply L. apply in_map_iff in H as (f & <- & I).
    rewrite in_output_file. split; [exact I|congruence].
Qed.
Print Assumptions C71_rm_iff.

(** What mv takes away from a directory is announced as an input only. *)
Theorem C71_mv_iff : forall s os ops inv c,
  understood "mv" s os ops inv c ->
  (all_announced "mv" os ops c <->
   (forall f, In f (mv_sources os ops) -> In f (mv_targets os ops)) /\ ~ In "-" (mv_targets os ops) /\ given os "-v" = false).
Proof.
  intros s os ops inv c U. pose proof (fun e => list_mv _ _ _ _ _ _ U e eq_refl) as L. unfold all_announced. cbn [effects].
  assert (W : forall f, announced c (Writes f) <-> In f (mv_targets os ops) /\ f <> "-").
  { intros f. rewrite L, in_output_file. split; [intros [H|H]; [now apply in_input_writes in H|exact H]|auto]. }
  split.
  - intros A.
    assert (N : ~ In "-" (mv_targets os ops)).
    { intros I. specialize (A (Writes "-") ltac:(apply in_or_app; right; apply in_or_app; left; now apply in_map)).
      rewrite W in A. intuition congruence. }
    split; [|split; [exact N|]].
    + intros f I. specialize (A (Writes f) ltac:(apply in_or_app; left; now apply in_map)). rewrite W in A. tauto.
    + destruct (given os "-v"); [|reflexivity]. specialize (A WritesStdout ltac:(do 2 (apply in_or_app; right); now left)).
      rewrite L, in_output_stdout in A. destruct A as [A|A]; [now apply in_input_stdout in A|tauto].
  - intros (S & N & ->) e H. rewrite !in_app_iff in H.
    destruct H as [H|[H|[]]]; apply in_map_iff in H as (f & <- & I); apply W; (split; [auto|]); intros ->; auto.
Qed.
Print Assumptions C71_mv_iff.

Theorem C71_grep_iff : forall s os ops inv c,
  understood "grep" s os ops inv c ->
  (all_announced "grep" os ops c <->
   (** [-r] without files: the current directory is not announced *)
   (files_after (given os "-e" || given os "-f") ops = [] -> given os "-r" || given os "-R" = true ->
    In "." (values os "-f" ++ values os "--exclude-from")) /\
   (** [--regexp] is not recognised: the first file is taken for the pattern *)
   (uses inv "--regexp" -> ~ uses inv "-e" -> ~ uses inv "-f" -> forall o l, ops = o :: l ->
    In o l \/ In o (values os "--exclude-from") \/ (o = "-" /\ l = []))).
Proof.
  intros s os ops inv c U.
  assert (Kf : ~ uses inv "-f" -> values os "-f" = []).
  { intros H. apply (given_values _ _ _ _ _ _ _ U); [vm_compute; reflexivity|].
    now apply (given1_false _ _ _ _ _ (understood_linked _ _ _ _ _ _ U) "-f" "-f"). }
  destruct (list_grep _ _ _ _ _ _ U ReadsStdin eq_refl) as (Ge & Gf & files & F & _).
  assert (L : forall e, announced c e <-> In e (map input files) \/ In e (map input (values os "-f" ++ values os "--exclude-from")) \/
       (files = [] /\ e = ReadsStdin) \/ (given os "-q" = false /\ e = WritesStdout)).
  { intros e. destruct (list_grep _ _ _ _ _ _ U e eq_refl) as (_ & _ & files' & F' & L).
    assert (files' = files) as -> by (destruct F as [(P & ->)|(P & o & F)], F' as [(P' & ->)|(P' & o' & F')]; try tauto; congruence).
    exact L. }
  unfold all_announced. cbn [effects]. remember (files_after (given os "-e" || given os "-f") ops) as real eqn:Re.
  assert (D : real = files \/
    (uses inv "--regexp" /\ ~ uses inv "-e" /\ ~ uses inv "-f") /\ real = ops /\ exists o, ops = o :: files).
  { destruct F as [(P & ->)|(P & o & F)].
    - left. rewrite Re. destruct P as [P|P]; [rewrite (proj2 Ge (or_introl P))|rewrite (proj2 Gf P), orb_true_r]; reflexivity.
    - destruct (given os "-f") eqn:Ef; [exfalso; tauto|]. rewrite orb_false_r in Re.
      destruct (given os "-e") eqn:Ee.
      + right. destruct (proj1 Ge eq_refl) as [H|H]; [tauto|]. cbn in Re. split; [tauto|]. eauto.
      + left. rewrite Re, F. reflexivity. }
  assert (Rest : forall e, In e ((if given os "-q" then [] else [WritesStdout]) ++ map input (values os "-f") ++
                                 map input (values os "--exclude-from")) -> announced c e).
  { intros e H. apply L. rewrite map_app, !in_app_iff in *. destruct H as [H|H]; [|tauto].
    destruct (given os "-q"); [destruct H|]. destruct H as [<-|[]]. auto. }
  split.
  - intros A. split.
    + intros Er R. specialize (A (Reads ".")).
      rewrite Er, R in A. rewrite L in A. rewrite !in_input_file in A.
      assert (files = []) as -> by (destruct D as [D|(_ & D & o & D')]; congruence).
      specialize (A ltac:(apply in_or_app; right; now left)). cbn in A. intuition congruence.
    + intros H He Hf o l E. destruct D as [D|(_ & D & o' & D')].
      * exfalso. rewrite (proj2 Ge (or_intror H)) in Re. cbn in Re.
        destruct F as [(P & _)|(_ & o' & F)]; [tauto|]. rewrite <- D, Re in F. clear -F. apply (f_equal (@length string)) in F. cbn in F. lia.
      * rewrite E in D'. injection D' as <- <-. rewrite (Kf Hf) in L. cbn [app] in L.
        assert (X : announced c (input o)).
        { apply A. apply in_or_app. right. apply in_or_app. left. rewrite D, E. now left. }
        apply L in X. destruct (String.eqb o "-") eqn:Q.
        -- apply String.eqb_eq in Q as ->. change (input "-") with ReadsStdin in X. rewrite !in_input_stdin in X. intuition congruence.
        -- apply String.eqb_neq in Q. assert (Z : input o = Reads o) by now apply input_file. rewrite Z, !in_input_file in X. intuition congruence.
  - intros (A & B) e H. rewrite !in_app_iff in H. destruct H as [H|[H|H]]; [apply Rest; rewrite !in_app_iff; tauto| |apply Rest; rewrite !in_app_iff; tauto].
    apply L. destruct D as [D|((R & He & Hf) & D & o & D')].
    + rewrite D in H, A. destruct files as [|f l]; [|tauto]. destruct (given os "-r" || given os "-R") eqn:R.
      * destruct H as [<-|[]]. right. left. apply in_input_file. split; [exact (A eq_refl eq_refl)|discriminate].
      * destruct H as [<-|[]]. auto.
    + rewrite D, D' in H. cbn [map] in H. destruct H as [<-|H]; [|auto]. specialize (B R He Hf _ _ D').
      rewrite map_app, in_app_iff. destruct B as [B|[B|(-> & B)]]; [left; now apply in_map|right; left; right; now apply in_map|auto].
Qed.
Print Assumptions C71_grep_iff.

(** awk reads standard input if all its files are assignments, but that is announced only if there
    are no files at all. *)
Theorem C71_awk_iff : forall s os ops inv c,
  understood "awk" s os ops inv c ->
  let files := files_after (given os "-f") ops in
  (all_announced "awk" os ops c <->
   given os "-d" = false /\ given os "-p" = false /\
   (given os "-D" = true \/ (forall w, In w files -> assignment w = true) ->
    files = [] \/ In "-" files \/ In "-" (values os "-f"))).
Proof.
  intros s os ops inv c U files. destruct (list_awk _ _ _ _ _ _ U ReadsStdin eq_refl) as (Ge & GE & _).
  assert (VE : values os "-E" = []) by (apply (given_values _ _ _ _ _ _ _ U); [vm_compute; reflexivity|exact GE]).
  pose proof (fun e => proj2 (proj2 (list_awk _ _ _ _ _ _ U e eq_refl))) as L. fold files in L.
  unfold all_announced. cbn [effects]. rewrite Ge, GE, VE, !orb_false_r. fold files. cbn [map app].
  assert (S : announced c ReadsStdin <-> files = [] \/ In "-" files \/ In "-" (values os "-f")).
  { rewrite L, !in_input_stdin. intuition congruence. }
  assert (W : forall f, ~ announced c (Writes f)).
  { intros f. rewrite L. intros [H|[H|[(_ & H)|H]]]; try discriminate; now apply in_input_writes in H. }
  assert (E : filter (fun w => negb (assignment w)) files = [] <-> forall w, In w files -> assignment w = true).
  { induction files as [|f l IH]; cbn; [split; [intros _ w []|reflexivity]|]. destruct (assignment f) eqn:Q; cbn.
    - clear -Q. split.
      + intros H w [<-|I]; [exact Q|]. destruct (assignment w) eqn:R; [reflexivity|].
        assert (J : In w (filter (fun w => negb (assignment w)) l)) by (apply filter_In; rewrite R; auto). rewrite H in J. destruct J.
      + intros H. destruct (filter _ l) as [|w r] eqn:R; [reflexivity|].
        assert (J : In w (filter (fun w => negb (assignment w)) l)) by (rewrite R; now left). apply filter_In in J as (J & K).
        rewrite (H w (or_intror J)) in K. discriminate.
    - split; [discriminate|]. intros H. rewrite (H f (or_introl eq_refl)) in Q. discriminate. }
  split.
  - intros A. split; [|split].
    + destruct (given os "-d"); [|reflexivity]. exfalso. apply (W "awkvars.out"), A. cbn. rewrite !in_app_iff. cbn. tauto.
    + destruct (given os "-p"); [|reflexivity]. exfalso. apply (W "awkprof.out"), A. cbn. rewrite !in_app_iff. cbn. tauto.
    + intros H. apply S, A. cbn. rewrite !in_app_iff. destruct H as [->|H]; [cbn; tauto|]. apply E in H. rewrite H. cbn. tauto.
  - intros (-> & -> & A) e H. cbn [app] in H. destruct H as [<-|H]; [apply L; auto|]. rewrite !in_app_iff in H.
    destruct H as [H|[H|H]].
    + apply in_inputs in H as [H|(H & ->)].
      * apply L. left. apply in_map_iff in H as (w & <- & H). apply filter_In in H as (H & _). now apply in_map.
      * apply S, A. right. now apply E.
    + apply L. auto.
    + destruct (given os "-D"); [|destruct H]. destruct H as [<-|[]]. apply S, A. auto.
Qed.
Print Assumptions C71_awk_iff.

(** ** Nothing is announced in vain *)
Theorem C71_nothing_more : forall name s os ops inv c e,
  In name ["cat"; "comm"; "cut"; "head"; "mkfifo"; "rm"; "seq"; "tail"; "tr"; "uniq"; "wc"] ->
  ~ (In name ["mkfifo"; "rm"] /\ In "-" ops) ->
  understood name s os ops inv c -> announced c e -> In e (effects name os ops).
Proof.
  intros name s os ops inv c e I N U A.
  assert (X : In name ["cat"; "cut"; "head"; "tail"] -> In e (effects name os ops)).
  { intros J. apply (list_cat _ _ _ _ _ _ U e J) in A. cbn in J.
    repeat (destruct J as [<-|J]; [cbn [effects]; change (In e ([WritesStdout] ++ inputs ops)); rewrite in_app_iff, in_inputs; cbn; intuition congruence|]). destruct J. }
  assert (Y : In name ["rm"; "mkfifo"] -> In e (map Writes ops)).
  { intros J. apply (list_rm _ _ _ _ _ _ U e J) in A. apply in_map_iff in A as (f & <- & K). unfold output.
    destruct (String.eqb f "-") eqn:Q; [|now apply in_map]. apply String.eqb_eq in Q as ->. exfalso. apply N. cbn in J |- *. tauto. }
  cbn in I. repeat (destruct I as [<-|I]; [try (apply X; cbn; tauto); try (specialize (Y ltac:(cbn; tauto))); clear X|]); [..|destruct I]; cbn [effects].
  - apply (list_comm _ _ _ _ _ _ U e eq_refl) in A. destruct A as [A| ->]; [now right|now left].
  - exact Y.
  - apply in_or_app. now left.
  - apply (list_seq _ _ _ _ _ _ U e eq_refl) in A. cbn. auto.
  - apply (list_tr _ _ _ _ _ _ U e eq_refl) in A. cbn. intuition congruence.
  - destruct (list_uniq _ _ _ _ _ _ U e eq_refl) as [(-> & E)|[(f & -> & E)|(f & g & -> & E)]]; apply E in A; cbn;
      try (change (if String.eqb g "-" then WritesStdout else Writes g) with (output g)); intuition congruence.
  - destruct (list_wc _ _ _ _ _ _ U e eq_refl) as (G & E). apply E in A.
    rewrite (proj1 (given_values _ _ _ _ _ _ "--files0-from" U ltac:(vm_compute; reflexivity)) G).
    change (In e ([WritesStdout] ++ inputs ops)). rewrite in_app_iff, in_inputs. cbn. intuition congruence.
Qed.
Print Assumptions C71_nothing_more.
(** sed is said to read standard input whatever its operands. *)
Theorem C71_sed_stdin : forall s os ops inv c,
  understood "sed" s os ops inv c ->
  announced c ReadsStdin /\ (In ReadsStdin (effects "sed" os ops) <-> tl ops = [] \/ In "-" (tl ops)).
Proof.
  intros s os ops inv c U. destruct (list_sed _ _ _ _ _ _ U ReadsStdin eq_refl) as (A & B & D & _ & E). split; [apply E; auto|].
  assert (V : values os "-f" = []) by (apply (given_values _ _ _ _ _ _ _ U); [vm_compute; reflexivity|exact B]).
  cbn [effects]. rewrite A, B, D, V. cbn [orb files_after map app]. rewrite app_nil_r.
  change (In ReadsStdin (WritesStdout :: inputs (tl ops))) with (WritesStdout = ReadsStdin \/ In ReadsStdin (inputs (tl ops))).
  rewrite in_inputs, in_input_stdin. intuition congruence.
Qed.
Print Assumptions C71_sed_stdin.

(** ** Lines that are not plain *)
Lemma parsed_data name s ws inv : tokenises s (name :: ws) -> parse shipped_dir s = Ok inv ->
  In name (map fst manual) ->
  cmd_name inv = name /\ (flag_option_list inv, operand_list inv) = parse_words (data_of name) ws /\
  forall c, with_io shipped_dir inv c -> Forall2 (as_listed (data_of name)) (flag_option_list inv) (io_flag_option_list c).
Proof.
  intros S P M. apply in_map_iff in M as ((n, (T, p)) & E & M). cbn in E. subst n.
  destruct (manual_check _ _ _ M) as (_ & _ & _ & D). pose proof P as P'.
  unfold parse in P. apply split_iff_tokenises in S. rewrite S in P. cbn [bind] in P. rewrite D in P. cbn [bind] in P.
  destruct (parse_words (data_of name) ws) as [f o] eqn:Q. injection P as <-. cbn. split; [reflexivity|]. split; [reflexivity|].
  intros c W. destruct (C15_classified_as_declared _ _ P') as (j & fos & L & A & E). rewrite (E c W).
  assert (j = data_of name) as ->; [|exact A]. cbn in L. apply get_json_data_ok in L. congruence.
Qed.
Lemma stops name w ws : operand_word w ->
  forallb (fun x => negb (is_operand x)) (get_set_of_all_flags (data_of name) ++ get_set_of_all_options (data_of name)) = true ->
  parse_words (data_of name) (w :: ws) = ([], w :: ws).
Proof.
  intros O Z. rewrite forallb_forall in Z.
  assert (M : mem w (get_set_of_all_flags (data_of name)) = false /\ mem w (get_set_of_all_options (data_of name)) = false).
  { apply is_operand_iff in O. split; (destruct (mem w _) eqn:E; [|reflexivity]); apply mem_In in E;
      assert (I : negb (is_operand w) = true) by (apply Z; apply in_or_app; auto); rewrite O in I; discriminate. }
  apply parse_stop; [apply M|intros X; rewrite (proj2 M) in X; discriminate|].
  unfold are_all_individually_flags. destruct w as [|a r]; [reflexivity|].
  destruct (Ascii.eqb a "-") eqn:E; [|reflexivity]. apply Ascii.eqb_eq in E as ->. rewrite (O _ eq_refl). reflexivity.
Qed.
(** However [-i] or [--in-place] is written, the files sed changes are not announced as written. *)
Theorem C71_sed_in_place : forall T p s ws os ops inv c,
  In ("sed", (T, p)) manual -> tokenises s ("sed" :: ws) -> reads T p ws os ops ->
  parse shipped_dir s = Ok inv -> with_io shipped_dir inv c ->
  given os "-i" = true -> files_after (given os "-e" || given os "-f") ops <> [] ->
  ~ all_announced "sed" os ops c.
Proof.
  intros T p s ws os ops inv c M S R P W G N A.
  destruct (parsed_data _ _ _ _ S P (in_map fst _ _ M)) as (Nm & _ & F). specialize (F c W).
  destruct (files_after (given os "-e" || given os "-f") ops) as [|f l] eqn:Fi; [congruence|].
  assert (X : announced c (Writes f)).
  { apply A. cbn [effects]. rewrite G, Fi. cbn. auto. }
  destruct X as (r & [X|[(n & X)|[X|X]]] & E & O); apply C21_sed in W; auto; destruct W as (xs & Sc & (_ & _ & I) & B & D).
  - rewrite I in X.
    assert (res_access r = STREAM_INPUT) as Z.
    { destruct Sc as [(_ & ->)|(_ & o & l' & _ & ->)]; [|destruct X as [X|X]; [discriminate|]];
        apply in_map_iff in X as (y & X & _); injection X as <-; reflexivity. }
    rewrite Z in O. destruct O; discriminate.
  - destruct (F2_right _ _ _ _ F X) as (fo & _ & Q). inversion Q as [| |n' s' e b el Ie In' U' D' De]; subst.
    assert (K : forallb (fun e => match entry_access e with Some _ => false | None => true end) (j_option (data_of "sed")) = true)
      by (vm_compute; reflexivity).
    rewrite forallb_forall in K. specialize (K e Ie). rewrite (declares_access _ _ D') in K. discriminate.
  - destruct B as [(_ & B)|(_ & B)]; rewrite X in B; [injection B as ->|]; discriminate.
  - destruct D as [(_ & D)|(_ & D)]; rewrite X in D; [injection D as ->|]; discriminate.
Qed.
Print Assumptions C71_sed_in_place.
(** An output file of sort is missing whenever an operand comes first. *)
Theorem C71_sort_late : forall T p s w ws os ops inv c,
  In ("sort", (T, p)) manual -> tokenises s ("sort" :: w :: ws) -> operand_word w -> reads T p (w :: ws) os ops ->
  parse shipped_dir s = Ok inv -> with_io shipped_dir inv c ->
  values os "-o" <> [] -> ~ all_announced "sort" os ops c.
Proof.
  intros T p s w ws os ops inv c M S O R P W V A.
  destruct (parsed_data _ _ _ _ S P (in_map fst _ _ M)) as (Nm & Pw & F). specialize (F c W).
  assert (Q : flag_option_list inv = []).
  { rewrite (stops _ _ _ O) in Pw by (vm_compute; reflexivity). now injection Pw. }
  rewrite Q in F. assert (E : io_flag_option_list c = []) by (inversion F; reflexivity). clear F.
  apply C19_sort in W; [|rewrite Nm; cbn; auto]. destruct W as ((_ & _ & I) & B & D).
  destruct (values os "-o") as [|v l] eqn:Vv; [congruence|].
  assert (X : announced c (Writes v)) by (apply A; cbn [effects]; rewrite Vv; cbn; auto).
  destruct X as (r & [X|[(n & X)|[X|X]]] & El & Oa).
  - rewrite I in X. apply in_map_iff in X as (y & X & _). injection X as <-. destruct Oa; discriminate.
  - rewrite E in X. destruct X.
  - destruct B as [(_ & B)|(_ & B)]; rewrite X in B; [injection B as ->|]; discriminate.
  - destruct D as [(_ & D)|(_ & D)]; rewrite X in D; [injection D as ->|]; discriminate.
Qed.
Print Assumptions C71_sort_late.
(** [diff -u a b]: the first file is taken for the argument of [-u]. *)
Theorem C71_diff_unified : forall s a b inv c,
  tokenises s ["diff"; "-u"; a; b] -> a <> b -> a <> "-" ->
  operand_word a -> operand_word b ->
  parse shipped_dir s = Ok inv -> with_io shipped_dir inv c ->
  exists T p os, In ("diff", (T, p)) manual /\ reads T p ["-u"; a; b] os [a; b] /\
    In (Reads a) (effects "diff" os [a; b]) /\ ~ announced c (Reads a).
Proof.
  intros s a b inv c S Ne Nd Oa Ob P W. destruct (parsed_data _ _ _ _ S P ltac:(cbn; auto 20)) as (Nm & Pw & F). specialize (F c W).
  exists diff_options, true, [([no "-u"; arg "-U"; opt "--unified"], None)]. split; [inT|]. split; [|split].
  - apply (reads_short _ _ "u" [_] _ []).
    + apply letters_last with NoArg; [inT|cbn; auto|discriminate].
    + apply reads_operand; auto. apply reads_operand; auto. constructor.
  - cbn [effects]. right. apply in_or_app. left. left. now apply input_file.
  - rewrite parse_option in Pw by (try discriminate; vm_compute; reflexivity).
    rewrite (stops _ _ _ Ob) in Pw by (vm_compute; reflexivity). cbn [fst snd] in Pw. injection Pw as Fl Op.
    apply C22_diff in W; [|exact Nm]. destruct W as ((_ & _ & I) & B & D). rewrite Op in I. cbn [map] in I.
    intros (r & [X|[(n & X)|[X|X]]] & El & Oc).
    + rewrite I in X. destruct X as [X|[]]. injection X as <-. cbn in El. destruct (String.eqb b "-"); [discriminate|congruence].
    + destruct (F2_right _ _ _ _ F X) as (fo & J & Q). rewrite Fl in J. destruct J as [<-|[]].
      inversion Q as [| |n' s' e k el Ie In' U' D' De]; subst.
      assert (K : forallb (fun e => negb (mem (dict_get_default (get_dict_option_to_primary_repr (data_of "diff")) "-u" "-u") (oe_names e)) ||
                    match entry_access e with Some _ => false | None => true end) (j_option (data_of "diff")) = true) by (vm_compute; reflexivity).
      rewrite forallb_forall in K. specialize (K e Ie). rewrite (proj2 (mem_In _ _) In'), (declares_access _ _ D') in K. discriminate.
    + destruct B as [(_ & B)|(_ & B)]; rewrite X in B; [injection B as ->|]; discriminate.
    + destruct D as [(_ & D)|(_ & D)]; rewrite X in D; [injection D as ->|]; discriminate.
Qed.
Print Assumptions C71_diff_unified.

(** ** Cases *)
Ltac word := let r := fresh in let E := fresh in intros r E; first [discriminate | injection E as <-; reflexivity].
Ltac long := match goal with |- long_word (String _ (String _ ?r)) => exists r; reflexivity end.
Ltac operands := repeat (apply reads_operand; [reflexivity|word|]); apply reads_end.
Ltac plain_ops := first [apply plain_end | apply plain_operands; [word|nob|intros _; repeat (constructor; [word|]); constructor]].
Ltac understand T p ws reading plainness :=
  eexists; eexists; exists T, p, ws; split; [inT|]; split; [apply split_iff_tokenises; vm_compute; reflexivity|];
  split; [reading|]; split; [plainness|]; split; [reflexivity|]; split; [reflexivity|];
  split; [vm_compute; reflexivity|eexists; split; vm_compute; reflexivity].
Ltac one_flag g := apply (reads_short _ _ _ [(g, None)]); [eapply letters_last; [inT|inT|discriminate]|].
Ltac one_option g a := apply (reads_short_arg _ _ _ _ [(g, Some a)]); [eapply letters_next; [inT|inT]|].
Ltac plain_flag x := eapply (plain_option _ _ _ _ x); [inT|inT|discriminate|nob|].
Ltac plain_opt x := apply (plain_option_arg _ _ _ _ x); [inT|inT|nob|].

Definition number : opt_group := [no "-n"; no "--number"].
Example C71_cat_case : exists inv c,
  understood "cat" "cat -n a -" [(number, None)] ["a"; "-"] inv c.
Proof.
  understand cat_options true ["-n"; "a"; "-"] ltac:(one_flag number; operands) ltac:(plain_flag number; plain_ops).
Qed.
Definition out_option : opt_group := [arg "-o"; arg "--output"].
Example C71_sort_case : exists inv c,
  understood "sort" "sort -o out f" [(out_option, Some "out")] ["f"] inv c.
Proof. understand sort_options true ["-o"; "out"; "f"] ltac:(one_option out_option "out"; operands) ltac:(plain_opt out_option; plain_ops). Qed.
Example C71_sort_dash : exists inv c,
  understood "sort" "sort -o - f" [(out_option, Some "-")] ["f"] inv c.
Proof. understand sort_options true ["-o"; "-"; "f"] ltac:(one_option out_option "-"; operands) ltac:(plain_opt out_option; plain_ops). Qed.
Example C71_mv_case : exists inv c, understood "mv" "mv a b" [] ["a"; "b"] inv c.
Proof. understand mv_options true ["a"; "b"] ltac:(operands) ltac:(plain_ops). Qed.
Example C71_tee_case : exists inv c, understood "tee" "tee a" [] ["a"] inv c.
Proof. understand tee_options true ["a"] ltac:(operands) ltac:(plain_ops). Qed.
Example C71_mkfifo_case : exists inv c, understood "mkfifo" "mkfifo p" [] ["p"] inv c.
Proof. understand mkfifo_options true ["p"] ltac:(operands) ltac:(plain_ops). Qed.
Definition verbose : opt_group := [no "-v"; no "--verbose"].
Example C71_rm_case : exists inv c, understood "rm" "rm -v a" [(verbose, None)] ["a"] inv c.
Proof. understand rm_options true ["-v"; "a"] ltac:(one_flag verbose; operands) ltac:(plain_flag verbose; plain_ops). Qed.
Definition regexp : opt_group := [arg "-e"; arg "--regexp"].
Example C71_grep_case : exists inv c, understood "grep" "grep --regexp p f" [(regexp, Some "p")] ["f"] inv c /\
  uses inv "--regexp" /\ ~ uses inv "-e" /\ ~ uses inv "-f".
Proof.
  assert (H : exists inv c, understood "grep" "grep --regexp p f" [(regexp, Some "p")] ["f"] inv c).
  { understand grep_options true ["--regexp"; "p"; "f"]
      ltac:(eapply reads_long_arg; [long|inT|inT|]; operands) ltac:(plain_opt regexp; plain_ops). }
  destruct H as (inv & c & H). exists inv, c. split; [exact H|].
  destruct H as (T & p & ws & _ & _ & _ & _ & _ & _ & P & _). vm_compute in P. injection P as <-. unfold uses. cbn.
  split; [eexists; split; [now left|reflexivity]|]. split; intros (fo & [<-|[]] & E); discriminate.
Qed.
Example C71_awk_case : exists inv c, understood "awk" "awk prog x=1" [] ["prog"; "x=1"] inv c.
Proof. understand awk_options false ["prog"; "x=1"] ltac:(apply reads_stop; [reflexivity|word]) ltac:(apply plain_operands; [word|nob|discriminate]). Qed.
Example C71_sed_case : exists inv c, understood "sed" "sed p f" [] ["p"; "f"] inv c.
Proof. understand sed_options true ["p"; "f"] ltac:(operands) ltac:(plain_ops). Qed.

(** ** Not everything is announced *)
Theorem C71_refuted : ~ forall name s os ops inv c, understood name s os ops inv c -> all_announced name os ops c.
Proof.
  intros H. destruct C71_mv_case as (inv & c & U). pose proof (H _ _ _ _ _ _ U) as A.
  apply (C71_mv_iff _ _ _ _ _ U) in A as (A & _). specialize (A "a" ltac:(cbn; auto)). cbn in A. intuition discriminate.
Qed.
Print Assumptions C71_refuted.
Example C71_missing :
  (exists inv c, understood "sort" "sort -o - f" [(out_option, Some "-")] ["f"] inv c /\
     ~ all_announced "sort" [(out_option, Some "-")] ["f"] c) /\
  (exists inv c, understood "sort" "sort -o out f" [(out_option, Some "out")] ["f"] inv c /\
     all_announced "sort" [(out_option, Some "out")] ["f"] c) /\
  (exists inv c, understood "rm" "rm -v a" [(verbose, None)] ["a"] inv c /\ ~ all_announced "rm" [(verbose, None)] ["a"] c) /\
  (exists inv c, understood "grep" "grep --regexp p f" [(regexp, Some "p")] ["f"] inv c /\
     ~ all_announced "grep" [(regexp, Some "p")] ["f"] c) /\
  (exists inv c, understood "awk" "awk prog x=1" [] ["prog"; "x=1"] inv c /\ ~ all_announced "awk" [] ["prog"; "x=1"] c) /\
  (exists inv c, understood "tee" "tee a" [] ["a"] inv c /\ all_announced "tee" [] ["a"] c) /\
  (exists inv c, understood "mkfifo" "mkfifo p" [] ["p"] inv c /\ all_announced "mkfifo" [] ["p"] c).
Proof.
  repeat split.
  - destruct C71_sort_dash as (i & c & U). exists i, c. split; [exact U|]. rewrite (C71_sort_iff _ _ _ _ _ U). cbn. tauto.
  - destruct C71_sort_case as (i & c & U). exists i, c. split; [exact U|]. rewrite (C71_sort_iff _ _ _ _ _ U). cbn. intuition discriminate.
  - destruct C71_rm_case as (i & c & U). exists i, c. split; [exact U|]. rewrite (C71_rm_iff _ _ _ _ _ U). cbn. intuition discriminate.
  - destruct C71_grep_case as (i & c & U & A & B & D). exists i, c. split; [exact U|]. rewrite (C71_grep_iff _ _ _ _ _ U).
    intros (_ & X). specialize (X A B D _ _ eq_refl). cbn in X. intuition discriminate.
  - destruct C71_awk_case as (i & c & U). exists i, c. split; [exact U|]. rewrite (C71_awk_iff _ _ _ _ _ U).
    intros (_ & _ & X). destruct X as [X|[X|X]].
    + right. intros w [<-|[]]. reflexivity.
    + discriminate.
    + cbn in X. intuition discriminate.
    + destruct X.
  - destruct C71_tee_case as (i & c & U). exists i, c. split; [exact U|]. rewrite (C71_tee_iff _ _ _ _ _ U). cbn. intuition discriminate.
  - destruct C71_mkfifo_case as (i & c & U). exists i, c. split; [exact U|]. rewrite (C71_mkfifo_iff _ _ _ _ _ U). cbn. intuition discriminate.
Qed.
(** The hypotheses of the theorems about lines that are not plain. *)
Example C71_lines : exists inv c inv' c' inv'' c'',
  parse shipped_dir "sed -i s/a/b/ f" = Ok inv /\ with_io shipped_dir inv c /\
  reads sed_options true ["-i"; "s/a/b/"; "f"] [([opt "-i"; opt "--in-place"], None)] ["s/a/b/"; "f"] /\
  parse shipped_dir "sort f -o out" = Ok inv' /\ with_io shipped_dir inv' c' /\
  reads sort_options true ["f"; "-o"; "out"] [(out_option, Some "out")] ["f"] /\
  parse shipped_dir "diff -u a b" = Ok inv'' /\ with_io shipped_dir inv'' c''.
Proof.
  do 6 eexists. repeat (match goal with |- _ /\ _ => split end);
    try (vm_compute; reflexivity); try (eexists; split; vm_compute; reflexivity).
  - apply (reads_short _ _ "i" [([opt "-i"; opt "--in-place"], None)]); [eapply letters_last; [inT|inT|discriminate]|]. operands.
  - apply reads_operand; [reflexivity|word|]. apply (reads_short_arg _ _ "o" "out" [(out_option, Some "out")]); [eapply letters_next; [inT|inT]|]. constructor.
Qed.
