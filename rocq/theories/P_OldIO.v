(** * C82: the streams of the earlier records and those of the generators *)
From Coq Require Import NArith Permutation Lia.
Require Import Verif.PyBase Verif.JsonData Verif.ParserFacts Verif.Parser Verif.Access Verif.IOInfo Verif.IOGen Verif.SpecIO Verif.SpecPara Verif.ParaFacts
  Verif.IOShipped Verif.ShippedFacts Verif.ShippedData Verif.SpecParser Verif.SpecOld Verif.OldFacts Verif.SpecOldIO Verif.OldIOFacts Verif.P_IO.

Lemma rec_at inv name h cs (P : bool -> list io_case -> Prop) : cmd_name inv = name -> io_of name = Some (h, cs) ->
  ((exists h' cs', io_of (cmd_name inv) = Some (h', cs') /\ P h' cs') <-> P h cs).
Proof. intros -> E. rewrite E. split; [intros (h' & cs' & [= -> ->] & H); exact H|eauto]. Qed.
Ltac record H :=
  match type of H with cmd_name ?inv = ?n =>
    let r := eval vm_compute in (io_of n) in
    match r with Some (?h, ?cs) =>
      assert (OI : forall l, old_inputs inv l <-> streams_in ic_in STDIN inv h cs l)
        by (let z := fresh in intros z; rewrite old_inputs_iff; exact (rec_at inv n h cs (fun h1 cs1 => streams_in ic_in STDIN inv h1 cs1 z) H (eq_refl (Some (h, cs)) <: io_of n = Some (h, cs))));
      assert (OO : forall l, old_outputs inv l <-> streams_in ic_out STDOUT inv h cs l)
        by (let z := fresh in intros z; rewrite old_outputs_iff; exact (rec_at inv n h cs (fun h1 cs1 => streams_in ic_out STDOUT inv h1 cs1 z) H (eq_refl (Some (h, cs)) <: io_of n = Some (h, cs))));
      cbn [streams_in met ic_when ic_in ic_out ic_hyphen flat_map streams_at selected skipn app orb andb] in OI, OO
    end
  end.

Definition implicit_streams (r : option resource) : list file_or_std := match r with Some r => [res_el r] | None => [] end.
Lemma new_in inv c ops P : In (cmd_name inv) io_commands -> shape shipped_dir inv c ops -> stdin_iff c P ->
  (P /\ new_inputs c = flat_map (arg_at (stream_names STREAM_INPUT (cmd_name inv)) STDIN) (flag_option_list inv) ++ flat_map (stream_of STREAM_INPUT) ops ++ [StdDescriptor STDIN]) \/
  (~ P /\ new_inputs c = flat_map (arg_at (stream_names STREAM_INPUT (cmd_name inv)) STDIN) (flag_option_list inv) ++ flat_map (stream_of STREAM_INPUT) ops).
Proof.
  intros I (_ & O & E) S. unfold new_inputs, streams. rewrite E, (options_streams STREAM_INPUT inv _ (or_introl eq_refl) I O). cbn [std_of].
  destruct S as [(Q & ->)|(Q & ->)]; [left|right]; (split; [exact Q|]); [reflexivity|]. now rewrite app_nil_r.
Qed.
Lemma new_out inv c ops P : In (cmd_name inv) io_commands -> shape shipped_dir inv c ops -> stdout_iff c P ->
  (P /\ new_outputs c = flat_map (arg_at (stream_names STREAM_OUTPUT (cmd_name inv)) STDOUT) (flag_option_list inv) ++ flat_map (stream_of STREAM_OUTPUT) ops ++ [StdDescriptor STDOUT]) \/
  (~ P /\ new_outputs c = flat_map (arg_at (stream_names STREAM_OUTPUT (cmd_name inv)) STDOUT) (flag_option_list inv) ++ flat_map (stream_of STREAM_OUTPUT) ops).
Proof.
  intros I (_ & O & E) S. unfold new_outputs, streams. rewrite E, (options_streams STREAM_OUTPUT inv _ (or_intror eq_refl) I O). cbn [std_of].
  destruct S as [(Q & ->)|(Q & ->)]; [left|right]; (split; [exact Q|]); [reflexivity|]. now rewrite app_nil_r.
Qed.
Lemma in_io name : mem name io_commands = true -> In name io_commands.
Proof. apply mem_In. Qed.

(** What the generators find, by command *)
Ltac known H := rewrite H; apply in_io; reflexivity.
Ltac no_opts H := rewrite H in *; cbn [stream_names] in *; rewrite ?no_names in *; cbn [app] in *.

Definition opt_args (inv : invocation) (names : list string) : list string :=
  flat_map (fun fo => match fo with Option_ n s => if mem n names then [s] else [] | Flag _ => [] end) (flag_option_list inv).
Lemma arg_at_args names d inv : flat_map (arg_at names d) (flag_option_list inv) = map (el_of d) (opt_args inv names).
Proof.
  unfold opt_args. induction (flag_option_list inv) as [|[n|n s] fl IH]; [reflexivity|exact IH|].
  cbn [flat_map arg_at]. destruct (mem n names); cbn; now rewrite IH.
Qed.

Inductive new_reads (inv : invocation) (l : list file_or_std) : Prop :=
| nr_stdin : In (cmd_name inv) ["tr"; "custom_tr"; "xargs"; "set_diff"; "tee"] -> l = [StdDescriptor STDIN] -> new_reads inv l
| nr_none : In (cmd_name inv) ["seq"; "rm"; "mkfifo"] -> l = [] -> new_reads inv l
| nr_filters : In (cmd_name inv) ["col"; "alt_bigrams_aux"; "bigrams_aux"; "test_one"; "test_two"] ->
    l = map (el_of STDIN) (operand_list inv) ++ [StdDescriptor STDIN] -> new_reads inv l
| nr_files : In (cmd_name inv) ["comm"; "alt_bigram_aux_reduce"] -> l = map (el_of STDIN) (operand_list inv) -> new_reads inv l
| nr_diff : cmd_name inv = "diff" -> l = map (el_of STDIN) (opt_args inv ["--from-file"; "--to-file"]) ++ map (el_of STDIN) (operand_list inv) -> new_reads inv l
| nr_cat : In (cmd_name inv) ["cat"; "cut"; "head"; "tail"; "wc"] ->
    l = (if operand_list inv then [StdDescriptor STDIN] else map (el_of STDIN) (operand_list inv)) -> new_reads inv l
| nr_sort : In (cmd_name inv) ["sort"; "custom_sort"] ->
    (operand_list inv = [] /\ ~ uses inv "--files0-from" /\ l = [StdDescriptor STDIN]) \/
    (~ (operand_list inv = [] /\ ~ uses inv "--files0-from") /\ l = map (el_of STDIN) (operand_list inv)) -> new_reads inv l
| nr_grep fs : cmd_name inv = "grep" -> files ["-e"; "-f"] inv fs -> l = (if fs then [StdDescriptor STDIN] else map (el_of STDIN) fs) -> new_reads inv l
| nr_awk fs : cmd_name inv = "awk" -> files ["-f"] inv fs -> l = (if fs then [StdDescriptor STDIN] else map (el_of STDIN) fs) -> new_reads inv l
| nr_sed fs : cmd_name inv = "sed" -> files ["-e"; "-f"] inv fs -> l = map (el_of STDIN) fs ++ [StdDescriptor STDIN] -> new_reads inv l
| nr_uniq : cmd_name inv = "uniq" -> l = [el_of STDIN (hd "-" (operand_list inv))] -> new_reads inv l.

Lemma any2 inv a b : uses_any inv [a; b] <-> uses inv a \/ uses inv b.
Proof. unfold uses_any. split; [intros (n & [<- |[<- |[]]] & U); auto|intros [U|U]; eexists; (split; [|exact U]); cbn; auto]. Qed.
Lemma script_streams (P : Prop) ops xs : script_operand P ops xs ->
  flat_map (stream_of STREAM_OUTPUT) xs = [] /\
  ((P /\ flat_map (stream_of STREAM_INPUT) xs = map (el_of STDIN) ops) \/
   (~ P /\ exists s l, ops = s :: l /\ flat_map (stream_of STREAM_INPUT) xs = map (el_of STDIN) l)).
Proof.
  intros [(Q & ->)|(Q & o & l & -> & ->)].
  - rewrite other_in_streams by reflexivity. split; [reflexivity|]. left. split; [exact Q|]. now apply files_streams.
  - cbn [flat_map stream_of app]. rewrite other_in_streams by reflexivity. split; [reflexivity|]. right. split; [exact Q|]. exists o, l. split; [reflexivity|]. now apply files_streams.
Qed.
Lemma with_io_command inv c : with_io shipped_dir inv c -> In (cmd_name inv) io_commands.
Proof.
  intros (i & G & _). destruct (in_dec string_dec (cmd_name inv) io_commands) as [I|N]; [exact I|].
  assert (E : get_input_output_info shipped_dir inv = None) by (apply C16_none_iff; auto). congruence.
Qed.
Ltac pick := cbn; tauto.
Ltac opened H W := match type of W with with_io _ ?inv ?c =>
  first
  [ rewrite (C19_cat_cut_head_tail shipped_dir inv c) in W by (rewrite H; pick)
  | rewrite (C19_wc shipped_dir inv c H) in W
  | rewrite (C19_sort shipped_dir inv c) in W by (rewrite H; pick)
  | rewrite (C20_grep shipped_dir inv c H) in W
  | rewrite (C20_awk shipped_dir inv c H) in W
  | rewrite (C21_sed shipped_dir inv c H) in W
  | rewrite (C22_comm shipped_dir inv c H) in W
  | rewrite (C22_diff shipped_dir inv c H) in W
  | rewrite (C22_uniq shipped_dir inv c H) in W
  | rewrite (C22_set_diff shipped_dir inv c H) in W
  | rewrite (C23_rm_mkfifo shipped_dir inv c) in W by (rewrite H; pick)
  | rewrite (C23_tee shipped_dir inv c H) in W
  | rewrite (C24_tr_xargs shipped_dir inv c) in W by (rewrite H; pick)
  | rewrite (C24_seq shipped_dir inv c H) in W
  | rewrite (C24_filters shipped_dir inv c) in W by (rewrite H; pick)
  | rewrite (C24_alt_bigram_aux_reduce shipped_dir inv c H) in W ]
  end.
Ltac streamed H S I :=
  let X := fresh "X" in
  pose proof (new_in _ _ _ _ ltac:(known H) S I) as X; rewrite H in X; cbn [stream_names] in X; rewrite ?no_names in X; cbn [app] in X;
  rewrite ?files_streams, ?strings_streams in X by reflexivity; rewrite ?other_in_streams, ?other_out_streams in X by reflexivity; cbn [app] in X.

Lemma reads inv c : with_io shipped_dir inv c -> cmd_name inv <> "mv" -> new_reads inv (new_inputs c).
Proof.
  intros W NM. pose proof (with_io_command _ _ W) as I. cbn in I.
  repeat (destruct I as [H|I]; [symmetry in H; try congruence; opened H W|]); try contradiction.
  all: repeat match goal with
         | W : _ /\ _ |- _ => destruct W as [? W]
         | W : exists _, _ |- _ => destruct W as [? W]
         end.
  all: try match goal with S : shape _ _ _ _, T : stdin_iff _ _ |- _ => streamed H S T end.
  all: try (destruct X as [(Q & X)|(Q & X)]; try tauto).
  all: try (apply nr_stdin; [rewrite H; pick|exact X]).
  all: try (apply nr_none; [rewrite H; pick|exact X]).
  all: try (apply nr_filters; [rewrite H; pick|exact X]).
  all: try (apply nr_files; [rewrite H; pick|exact X]).
  all: try (apply nr_cat; [rewrite H; pick|]; rewrite X; destruct (operand_list inv); [reflexivity || (destruct Q; reflexivity)|reflexivity || discriminate Q]).
  all: try (apply nr_sort; [rewrite H; pick|]; rewrite X; destruct Q as (-> & Q); auto).
  all: try (apply nr_sort; [rewrite H; pick|]; rewrite X; auto).
  - apply script_streams in H0 as (_ & [(U & F)|(U & s & l & E & F)]).
    + destruct Q as [(_ & Q)|(Q & _)]; [|tauto]. apply (nr_awk _ _ (operand_list inv) H); [apply files_all; now apply uses_any1|].
      rewrite X, F. now destruct (operand_list inv).
    + destruct Q as [(Q & _)|(_ & Q)]; [tauto|]. apply (nr_awk _ _ l H); [apply (files_rest _ _ s); [now rewrite uses_any1|exact E]|].
      rewrite X, F. rewrite E in Q. now destruct l.
  - apply script_streams in H0 as (_ & [(U & F)|(U & s & l & E & F)]).
    + apply (nr_awk _ _ (operand_list inv) H); [apply files_all; now apply uses_any1|].
      rewrite X, F. destruct (operand_list inv); [|reflexivity]. destruct Q. now left.
    + apply (nr_awk _ _ l H); [apply (files_rest _ _ s); [now rewrite uses_any1|exact E]|].
      rewrite X, F. destruct l; [|reflexivity]. rewrite E in Q. destruct Q. now right.
  - apply nr_diff; [exact H|]. rewrite X, arg_at_args. reflexivity.
  - apply script_streams in H0 as (_ & [(U & F)|(U & s & l & E & F)]).
    + destruct Q as [(_ & Q)|(Q & _)]; [|tauto]. apply (nr_grep _ _ (operand_list inv) H); [apply files_all; now apply any2|].
      rewrite X, F. now destruct (operand_list inv).
    + destruct Q as [(Q & _)|(_ & Q)]; [tauto|]. apply (nr_grep _ _ l H); [apply (files_rest _ _ s); [now rewrite any2|exact E]|].
      rewrite X, F. rewrite E in Q. now destruct l.
  - apply script_streams in H0 as (_ & [(U & F)|(U & s & l & E & F)]).
    + apply (nr_grep _ _ (operand_list inv) H); [apply files_all; now apply any2|].
      rewrite X, F. destruct (operand_list inv); [|reflexivity]. destruct Q. now left.
    + apply (nr_grep _ _ l H); [apply (files_rest _ _ s); [now rewrite any2|exact E]|].
      rewrite X, F. destruct l; [|reflexivity]. rewrite E in Q. destruct Q. now right.
  - apply script_streams in H0 as (_ & [(U & F)|(U & s & l & E & F)]).
    + apply (nr_sed _ _ (operand_list inv) H); [apply files_all; now apply any2|]. now rewrite X, F.
    + apply (nr_sed _ _ l H); [apply (files_rest _ _ s); [now rewrite any2|exact E]|]. now rewrite X, F.
  - apply nr_uniq; [exact H|]. destruct W as [(E & S & T & _)|[(f & E & S & T & _)|(f & g & E & S & T & _)]]; rewrite E;
      streamed H S T; destruct X as [(Q & X)|(Q & X)]; try tauto; exact X.
Qed.

Inductive new_writes (inv : invocation) (l : list file_or_std) : Prop :=
| nw_stdout : ~ In (cmd_name inv) ["grep"; "mkfifo"; "rm"; "sort"; "custom_sort"; "tee"; "uniq"] -> l = [StdDescriptor STDOUT] -> new_writes inv l
| nw_none : In (cmd_name inv) ["rm"; "mkfifo"] -> l = [] -> new_writes inv l
| nw_grep : cmd_name inv = "grep" -> uses inv "-q" /\ l = [] \/ ~ uses inv "-q" /\ l = [StdDescriptor STDOUT] -> new_writes inv l
| nw_tee : cmd_name inv = "tee" -> l = map (el_of STDOUT) (operand_list inv) ++ [StdDescriptor STDOUT] -> new_writes inv l
| nw_sort : In (cmd_name inv) ["sort"; "custom_sort"] ->
    ~ uses inv "-o" /\ l = [StdDescriptor STDOUT] \/
    uses inv "-o" /\ l = map (el_of STDOUT) (option_args inv "-o") -> new_writes inv l
| nw_uniq : cmd_name inv = "uniq" -> l = [el_of STDOUT (nth 1 (operand_list inv) "-")] -> new_writes inv l.
Lemma args_one inv n : opt_args inv [n] = option_args inv n.
Proof.
  unfold opt_args, option_args. induction (flag_option_list inv) as [|[m|m a] l IH]; [reflexivity|exact IH|]. cbn [flat_map]. rewrite IH. f_equal.
  unfold mem. cbn [existsb]. now rewrite orb_false_r.
Qed.
Lemma no_option_args inv n : ~ uses inv n -> option_args inv n = [].
Proof.
  intros U. unfold option_args.
  assert (U' : forall fo, In fo (flag_option_list inv) -> fo_name fo <> n) by (intros fo J E; apply U; now exists fo). clear U.
  induction (flag_option_list inv) as [|[m|m a] l IH]; [reflexivity|apply IH; intros; apply U'; now right|]. cbn [flat_map].
  rewrite (proj2 (String.eqb_neq m n) (U' _ (or_introl eq_refl))). apply IH. intros. apply U'. now right.
Qed.
Ltac streamed_out H S I :=
  let X := fresh "X" in
  pose proof (new_out _ _ _ _ ltac:(known H) S I) as X; rewrite H in X; cbn [stream_names] in X; rewrite ?no_names in X; cbn [app] in X;
  rewrite ?out_streams, ?strings_streams in X by reflexivity; rewrite ?other_in_streams, ?other_out_streams in X by reflexivity; cbn [app] in X.
Lemma no_options inv fos : cmd_name inv = "custom_sort" -> options_classified shipped_dir inv fos -> option_args inv "-o" = [].
Proof.
  intros H (j & L & _ & F). rewrite H in L. assert (E : j_option j = []) by (unfold SpecParser.loads in L; vm_compute in L; destruct L as [L|[L _]]; [injection L as <-; reflexivity|discriminate]).
  unfold option_args. induction F as [|fo fx l l' G F IH]; [reflexivity|]. destruct G as [n|n a d x D _]; [exact IH|].
  destruct D as (pre & e & post & D & _). rewrite E in D. now destruct pre.
Qed.
Lemma writes inv c : with_io shipped_dir inv c -> cmd_name inv <> "mv" -> new_writes inv (new_outputs c).
Proof.
  intros W NM. pose proof (with_io_command _ _ W) as I. cbn in I.
  repeat (destruct I as [H|I]; [symmetry in H; try congruence; opened H W|]); try contradiction.
  all: repeat match goal with
         | W : _ /\ _ |- _ => destruct W as [? W]
         | W : exists _, _ |- _ => destruct W as [? W]
         end.
  all: try match goal with S : shape _ _ _ _, T : stdout_iff _ _ |- _ => streamed_out H S T end.
  all: try match goal with S : script_operand _ _ _ |- _ => apply script_streams in S as (S & _); rewrite S in X; cbn [app] in X end.
  all: try (destruct X as [(Q & X)|(Q & X)]; try tauto).
  all: try (apply nw_stdout; [rewrite H; cbn; intuition discriminate|exact X]).
  all: try (apply nw_none; [rewrite H; pick|exact X]).
  all: try (apply nw_tee; [exact H|exact X]).
  all: try (apply nw_grep; [exact H|rewrite X; destruct (uses_dec inv "-q"); tauto]).
  - apply nw_sort; [rewrite H; pick|]. auto.
  - apply nw_sort; [rewrite H; pick|]. right. split; [destruct (uses_dec inv "-o"); tauto|]. destruct H0 as (_ & O & _). now rewrite X, (no_options inv _ H O).
  - destruct (uses_dec inv "-o") as [U|U]; [tauto|]. apply nw_sort; [rewrite H; pick|]. left. split; [exact U|]. rewrite X, arg_at_args, args_one.
    now rewrite no_option_args.
  - apply nw_sort; [rewrite H; pick|]. right. split; [destruct (uses_dec inv "-o"); tauto|]. now rewrite X, app_nil_r, arg_at_args, args_one.
  - apply nw_uniq; [exact H|]. destruct W as [(E & S & _ & T)|[(f & E & S & _ & T)|(f & g & E & S & _ & T)]]; rewrite E;
      streamed_out H S T; destruct X as [(Q & X)|(Q & X)]; try tauto; exact X.
Qed.

Definition both_commands : list string := filter (fun n => mem n old_commands) io_commands.
Lemma both_commands_eq : both_commands = ["alt_bigrams_aux"; "alt_bigram_aux_reduce"; "awk"; "bigrams_aux"; "cat"; "col"; "comm";
   "custom_sort"; "custom_tr"; "cut"; "diff"; "grep"; "head"; "mkfifo"; "rm"; "sed";
   "set_diff"; "seq"; "sort"; "tail"; "tee"; "test_one"; "test_two"; "tr"; "uniq"; "wc"; "xargs"].
Proof. vm_compute. reflexivity. Qed.
Lemma in_both inv c : with_io shipped_dir inv c -> In (cmd_name inv) old_commands -> In (cmd_name inv) both_commands.
Proof. intros W O. apply filter_In. split; [now apply (with_io_command inv c)|now apply mem_In]. Qed.

Lemma only P : (True /\ P) \/ (~ True /\ False) <-> P.
Proof. tauto. Qed.
Lemma same A P : {A} + {~ A} -> (A /\ P \/ ~ A /\ P <-> P).
Proof. intros [|]; tauto. Qed.
Lemma last_only (d : std) l : map (el_of d) l ++ [StdDescriptor d] = [StdDescriptor d] <-> l = [].
Proof. split; [|now intros ->]. destruct l as [|x [|y l]]; [reflexivity|discriminate|discriminate]. Qed.
Lemma stdin_or (l : list string) : (if l then [StdDescriptor STDIN] else map (el_of STDIN) l) = [StdDescriptor STDIN] <-> stdin_only l.
Proof. unfold stdin_only. destruct l as [|x l]; [tauto|]. rewrite one_std. intuition discriminate. Qed.
Lemma two_option_args inv a b : (opt_args inv [a; b] = [] <-> option_args inv a = [] /\ option_args inv b = []).
Proof.
  unfold opt_args, option_args. induction (flag_option_list inv) as [|[m|m x] l IH]; [cbn; tauto|exact IH|]. cbn [flat_map].
  unfold mem. cbn [existsb]. rewrite orb_false_r.
  destruct (String.eqb m a), (String.eqb m b); cbn [orb app]; try tauto; intuition discriminate.
Qed.
Ltac case_of H A :=
  destruct A as [C'|C' ?|C' ?|C' ? ? ?|C' ?|C' ?|C' ? ? ?|C' ? ? ?|? C' ? ? ?|C' ? ? ? ? ?|C' ?|? C' ? ?|C' ?]; rewrite H in C';
  try discriminate C'; try (exfalso; cbn in C'; intuition discriminate).
Lemma files_fun script inv l l' : files script inv l -> files script inv l' -> l = l'.
Proof. intros [U|s r U E] [U'|s' r' U' E']; try contradiction; [reflexivity|]. rewrite E in E'. now injection E'. Qed.
Lemma eq_sym_iff {A} (x y : A) : x = y <-> y = x.
Proof. split; congruence. Qed.
Lemma sort_agree inv l : In (cmd_name inv) ["sort"; "custom_sort"] ->
  (operand_list inv = [] /\ ~ uses inv "--files0-from" /\ l = [StdDescriptor STDIN]) \/
  (~ (operand_list inv = [] /\ ~ uses inv "--files0-from") /\ l = map (el_of STDIN) (operand_list inv)) ->
  (uses inv "-m" /\ l = map FileName (operand_list inv) \/ ~ uses inv "-m" /\ l = [StdDescriptor STDIN] <-> inputs_agree inv).
Proof.
  intros H E. split; [intros Q|intros A].
  - destruct Q as [(U & ->)|(U & ->)].
    + destruct E as [(X & _ & E)|(X & E)]; [rewrite X in E; discriminate|]. apply no_hyphen in E. apply ia_merge; auto.
      destruct (operand_list inv); [|left; discriminate]. right. destruct (uses_dec inv "--files0-from"); tauto.
    + destruct E as [(X & Y & E)|(X & E)]; [|symmetry in E; apply one_std in E]; apply ia_sort; auto; rewrite ?X, ?E; unfold stdin_only; auto.
      left. discriminate.
  - destruct A as [C'|C' ?|C' ?|C' ? ? ?|C' ?|C' ?|C' ? X Y|C' ? X Y|? C' ? ? ?|C' ? ? ? ? ?|C' ?|? C' ? ?|C' ?];
      try (exfalso; destruct H as [H|[H|[]]]; rewrite <- H in C'; (discriminate C' || (cbn in C'; intuition discriminate))).
    + right. split; [assumption|]. destruct E as [(_ & _ & ->)|(N & ->)]; [reflexivity|]. destruct X as [X|X]; [tauto|]. now rewrite X.
    + left. split; [assumption|]. destruct E as [(? & ? & _)|(N & ->)]; [tauto|]. symmetry. now apply no_hyphen.
Qed.
Theorem C82_inputs_iff : forall inv c, with_io shipped_dir inv c -> In (cmd_name inv) old_commands ->
  (old_inputs inv (new_inputs c) <-> inputs_agree inv).
Proof.
  intros inv c W O. pose proof (in_both _ _ W O) as B. rewrite both_commands_eq in B.
  assert (NM : cmd_name inv <> "mv") by (intros E; rewrite E in B; cbn in B; intuition discriminate).
  pose proof (reads _ _ W NM) as R. revert R. generalize (new_inputs c). clear W O NM. intros l R. cbn in B.
  repeat (destruct B as [H|B]; [symmetry in H; record H; rewrite OI; clear OI OO|]); try contradiction.
  all: destruct R as [C E|C E|C E|C E|C E|C E|C E|fs C F E|fs C F E|fs C F E|C E]; rewrite H in C; try discriminate C; try (exfalso; cbn in C; intuition discriminate).
  all: rewrite ?app_nil_r, ?uses_any1, ?hyphen_off, ?hyphen_on, ?only.
  all: rewrite ?same by first [apply uses_any_dec|apply uses_dec|apply value_dec|
         match goal with |- {?A} + {_} => exact (met_dec inv (AllOf [ValueIs ["-d"; "--delimiter"] "
"; Exists_ ["-f"; "--fields"]])) end].
  all: try solve [split; [intros _; apply ia_always; rewrite H; pick|intros _; exact E]].
  all: try solve [rewrite E, last_only; split; [intros Q; apply ia_filters; [rewrite H; pick|exact Q]|intros A; case_of H A; assumption]].
  all: try solve [rewrite E, stdin_or; split; [intros Q; apply ia_stdin; [rewrite H; pick|exact Q]|intros A; case_of H A; assumption]].
  all: try solve [rewrite E; split; [discriminate|intros A; case_of H A]].
  - rewrite E. split; [intros Q; apply ia_files; [exact H|]|intros A; case_of H A; symmetry; now apply no_hyphen]. symmetry in Q. now apply no_hyphen in Q.
  - rewrite E, stdin_or. split; [intros Q; now apply (ia_awk inv fs)|intros A; case_of H A]. now rewrite (files_fun _ _ _ _ F H0).
  - destruct (uses_dec inv "-n") as [U|U]; (split; [intros Q|intros A; case_of H A]).
    + apply ia_cat; [exact H|]. left. intros X. rewrite X in E, Q. subst l. destruct Q as [(_ & Q)|(Q & _)]; [discriminate|tauto].
    + left. split; [exact U|]. rewrite E. destruct (operand_list inv); [|reflexivity]. tauto.
    + apply ia_cat; auto.
    + right. split; [exact U|]. rewrite E. destruct (operand_list inv); cbn; [left|right]; auto.
  - now apply (sort_agree inv l); [rewrite H; pick|].
  - rewrite E. split; [intros Q|intros A; case_of H A].
    + assert (X : opt_args inv ["--from-file"; "--to-file"] = []).
      { apply (f_equal (@length _)) in Q. rewrite app_length, !map_length in Q. destruct (opt_args inv _); [reflexivity|cbn in Q; lia]. }
      rewrite X in Q. apply two_option_args in X as (X & Y). symmetry in Q. apply no_hyphen in Q. now apply ia_diff.
    + rewrite (proj2 (two_option_args inv _ _) (conj H1 H2)). symmetry. now apply no_hyphen.
  - split; [intros Q|intros A; case_of H A].
    + destruct (uses_dec inv "-c") as [U|U]; [|destruct (Nat.eq_dec (length (operand_list inv)) 1) as [N|N]].
      * destruct Q as [(_ & Q)|(Q & _)]; [|tauto]. rewrite Q, eq_sym_iff, stdin_or in E. now apply (ia_grep_stdin inv fs); auto.
      * destruct Q as [(Q & _)|(_ & [(_ & Q)|(Q & _)])]; [tauto| |tauto]. rewrite Q, eq_sym_iff, stdin_or in E. now apply (ia_grep_stdin inv fs); auto.
      * destruct Q as [(Q & _)|(_ & [(Q & _)|(_ & [(_ & Q)|(V & Q)])])]; [tauto|tauto|tauto|]. rewrite Q in E.
        destruct F as [F|x fs F G].
        -- apply ia_grep_files; auto; destruct (operand_list inv) as [|a [|b ops]]; try discriminate E; cbn in N |- *; try lia. now apply no_hyphen in E.
        -- exfalso. rewrite G in *. apply (f_equal (@length _)) in E. destruct fs; cbn in *; [lia|]. rewrite !map_length in E. lia.
    + rewrite (files_fun _ _ _ _ F H1), (proj2 (stdin_or _) H2) in *. destruct (uses_dec inv "-c"); tauto.
    + right. split; [assumption|]. right. split; [lia|]. right. split; [assumption|]. rewrite E. destruct F as [F|x fs F G]; [|tauto].
      destruct (operand_list inv); [cbn in *; lia|]. symmetry. now apply no_hyphen.
  - rewrite E, last_only. split; [intros ->; now apply ia_sed|intros A; case_of H A]. now apply (files_fun _ _ _ _ F).
  - now apply (sort_agree inv l); [rewrite H; pick|].
  - rewrite E. change [el_of STDIN (hd "-" (operand_list inv))] with (map (el_of STDIN) [hd "-" (operand_list inv)]). rewrite one_std.
    split; [intros [= Q]; now apply ia_uniq|intros A; case_of H A]. now f_equal.
Qed.
Print Assumptions C82_inputs_iff.

Ltac out_case H A :=
  destruct A as [C'|C' ? ?|C' ?|C' ?|C' ?]; rewrite H in C'; try discriminate C'; try (exfalso; cbn in C'; intuition discriminate).
Lemma one_out inv l : (forall l', old_outputs inv l' <-> True /\ l' = [StdDescriptor STDOUT] \/ ~ True /\ False) ->
  ((exists l', Permutation l' l /\ old_outputs inv l') <-> l = [StdDescriptor STDOUT]).
Proof.
  intros OO. split.
  - intros (l' & P & Q). rewrite OO, only in Q. subst l'. now apply Permutation_length_1_inv in P.
  - intros ->. eexists. split; [reflexivity|]. now rewrite OO, only.
Qed.
Arguments one_out {inv l} _.
Lemma sort_out inv l : In (cmd_name inv) ["sort"; "custom_sort"] ->
  ~ uses inv "-o" /\ l = [StdDescriptor STDOUT] \/ uses inv "-o" /\ l = map (el_of STDOUT) (option_args inv "-o") ->
  (forall l', old_outputs inv l' <-> uses_any inv ["-m"] /\ l' = [StdDescriptor STDOUT] \/ ~ uses_any inv ["-m"] /\
     (True /\ l' = [StdDescriptor STDOUT] \/ ~ True /\ False)) ->
  ((exists l', Permutation l' l /\ old_outputs inv l') <-> outputs_agree inv).
Proof.
  intros H E OO.
  rewrite one_out by (intros l'; rewrite OO, !only, same; [reflexivity|apply uses_any_dec]). split.
  - intros ->. apply oa_sort; [exact H|]. destruct E as [(E & _)|(_ & E)]; [now left|]. symmetry in E. apply one_std in E. now right.
  - intros A. destruct A as [C'|C' ? ?|C' A|C' ?|C' ?]; try (exfalso; destruct H as [H|[H|[]]]; rewrite <- H in C'; (discriminate C' || (cbn in C'; intuition discriminate))).
    destruct E as [(_ & E)|(U & E)]; [exact E|]. destruct A as [A|A]; [tauto|]. now rewrite E, A.
Qed.
Theorem C82_outputs_iff : forall inv c, with_io shipped_dir inv c -> In (cmd_name inv) old_commands ->
  ((exists l, Permutation l (new_outputs c) /\ old_outputs inv l) <-> outputs_agree inv).
Proof.
  intros inv c W O. pose proof (in_both _ _ W O) as B. rewrite both_commands_eq in B.
  assert (NM : cmd_name inv <> "mv") by (intros E; rewrite E in B; cbn in B; intuition discriminate).
  pose proof (writes _ _ W NM) as R. revert R. generalize (new_outputs c). clear W O NM. intros l R. cbn in B.
  repeat (destruct B as [H|B]; [symmetry in H; record H; clear OI|]); try contradiction.
  all: destruct R as [C E|C E|C E|C E|C E|C E]; rewrite H in C; try discriminate C; try (exfalso; cbn in C; intuition discriminate).
  all: rewrite ?app_nil_r, ?uses_any1, ?hyphen_off, ?hyphen_on in OO.
  all: try solve [split; [intros _; apply oa_always; rewrite H; exact C|intros _]; exists l; split; [reflexivity|]; apply OO; rewrite E;
     repeat match goal with |- ?A /\ _ \/ ~ ?A /\ _ => first [left; split; [exact I|reflexivity]|
        let N := fresh in assert (N : {A} + {~ A}) by (first [apply uses_any_dec|apply uses_dec|apply value_dec|apply Nat.eq_dec|exact (met_dec inv (AllOf [ValueIs ["-d"; "--delimiter"] "
"; Exists_ ["-f"; "--fields"]]))]); destruct N; [left; split; [assumption|reflexivity]|right; split; [assumption|]]] end].
  - now apply sort_out; [rewrite H; pick| |].
  - split.
    + intros (l' & P & Q). apply OO in Q.
      assert (X : l' = [StdDescriptor STDOUT] /\ (uses inv "-c" \/ length (operand_list inv) = 1 \/ ~ uses_any inv recursive)) by (rewrite ?uses_any1 in Q; unfold recursive; tauto).
      destruct X as (-> & X). apply Permutation_length_1_inv in P. apply oa_grep; [exact H| |exact X]. destruct E as [(_ & E)|(E & _)]; [congruence|exact E].
    + intros A. out_case H A. destruct E as [(E & _)|(_ & ->)]; [tauto|]. exists [StdDescriptor STDOUT]. split; [reflexivity|]. apply OO. rewrite ?uses_any1. unfold recursive in *.
      destruct (uses_dec inv "-c"), (Nat.eq_dec (length (operand_list inv)) 1); tauto.
  - rewrite (one_out OO), E. split; [discriminate|]. intros A. out_case H A.
  - rewrite (one_out OO), E. split; [discriminate|]. intros A. out_case H A.
  - now apply sort_out; [rewrite H; pick| |].
  - split.
    + intros (l' & P & Q). rewrite OO, only in Q. subst. apply oa_tee; [exact H|]. intros I.
      apply (Permutation_trans (l'' := StdDescriptor STDOUT :: map (el_of STDOUT) (operand_list inv))) in P; [|symmetry; apply Permutation_cons_append].
      apply Permutation_cons_inv in P. apply (in_map (el_of STDOUT)) in I. apply (Permutation_in _ (Permutation_sym P)) in I.
      apply in_map_iff in I as (x & X & _). discriminate.
    + intros A. out_case H A. exists (StdDescriptor STDOUT :: map FileName (operand_list inv)). split; [|rewrite OO, only; reflexivity]. rewrite E. rewrite <- Permutation_cons_append.
      now rewrite (proj2 (no_hyphen STDOUT _) H0).
  - rewrite (one_out OO), E. change [el_of STDOUT ?x] with (map (el_of STDOUT) [x]). rewrite one_std. split.
    + intros [= X]. now apply oa_uniq.
    + intros A. out_case H A. now f_equal.
Qed.
Print Assumptions C82_outputs_iff.


(** ** The records give one list of inputs and one of outputs *)
Lemma streams_fun get d inv h cs l l' : streams_in get d inv h cs l -> streams_in get d inv h cs l' -> l = l'.
Proof.
  induction cs as [|c cs IH]; [intros []|]. cbn [streams_in]. intros [(M & H)|(M & H)] [(M' & H')|(M' & H')]; try contradiction; [|auto].
  destruct (get c); [congruence|contradiction].
Qed.
Definition complete (cs : list io_case) : bool :=
  existsb (fun c => match ic_when c with Otherwise => true | _ => false end) cs &&
  forallb (fun c => match ic_in c, ic_out c with Some _, Some _ => true | _, _ => false end) cs.
Lemma complete_streams get d inv h cs : get = ic_in \/ get = ic_out -> complete cs = true -> exists l, streams_in get d inv h cs l.
Proof.
  intros G C. unfold complete in C. apply andb_true_iff in C as (C & F). induction cs as [|c cs IH]; [discriminate|]. cbn [existsb forallb] in C, F.
  apply andb_true_iff in F as (F0 & F). cbn [streams_in].
  assert (X : exists ps, get c = Some ps) by (destruct G as [-> | ->]; destruct (ic_in c), (ic_out c); try discriminate F0; eauto).
  destruct X as (ps & X). destruct (met_dec inv (ic_when c)) as [M|M].
  - eexists. left. split; [exact M|]. rewrite X. reflexivity.
  - apply orb_true_iff in C as [C|C]; [destruct (ic_when c); try discriminate C; cbn in M; tauto|]. destruct (IH C F) as (l & S). exists l. now right.
Qed.
Lemma table_complete : forallb (fun x => String.eqb (snd (fst (fst x))) "grep" || complete (snd x)) io_table = true.
Proof. vm_compute. reflexivity. Qed.
Lemma old_commands_io : old_commands = map (fun x => snd (fst (fst x))) io_table.
Proof. vm_compute. reflexivity. Qed.

Theorem C82_determined : forall inv, In (cmd_name inv) old_commands ->
  (forall l l', old_inputs inv l -> old_inputs inv l' -> l = l') /\ (forall l l', old_outputs inv l -> old_outputs inv l' -> l = l') /\
  ((exists l, old_inputs inv l) <-> ~ recursive_search inv) /\ ((exists l, old_outputs inv l) <-> ~ recursive_search inv).
Proof.
  intros inv O. split; [|split].
  - intros l l'. rewrite !old_inputs_iff. intros (h & cs & E & S) (h' & cs' & E' & S'). rewrite E in E'. injection E' as <- <-. exact (streams_fun _ _ _ _ _ _ _ S S').
  - intros l l'. rewrite !old_outputs_iff. intros (h & cs & E & S) (h' & cs' & E' & S'). rewrite E in E'. injection E' as <- <-. exact (streams_fun _ _ _ _ _ _ _ S S').
  - destruct (string_dec (cmd_name inv) "grep") as [H|N].
    + record H. unfold recursive_search, recursive.
      destruct (uses_dec inv "-c") as [U|U]; [|destruct (Nat.eq_dec (length (operand_list inv)) 1) as [L|L]; [|destruct (uses_any_dec inv recursive) as [R|R]]]; unfold recursive in *;
        (split; (split; [intros (l & Q); first [apply OI in Q|apply OO in Q]; rewrite ?uses_any1 in Q; tauto|intros Q])); try tauto;
        eexists; first [apply OI|apply OO]; rewrite ?uses_any1; clear OI OO.
      all: try (left; split; [exact U|reflexivity]).
      all: right; split; [exact U|].
      all: try (left; split; [exact L|reflexivity]).
      all: right; split; [exact L|]; right; split; [exact R|]; left; split; [exact I|reflexivity].
    + assert (R : ~ recursive_search inv) by (intros (R & _); contradiction). rewrite old_commands_io in O. apply in_map_iff in O as ([[[fn n] h] cs] & E & I). cbn in E. subst n.
      pose proof (proj1 (Forall_forall _ _) io_of_table _ I) as T. cbn in T.
      pose proof (proj1 (forallb_forall _ _) table_complete _ I) as C. cbn in C. rewrite (proj2 (String.eqb_neq _ _) N) in C. cbn in C.
      destruct (complete_streams ic_in STDIN inv h cs (or_introl eq_refl) C) as (l & S), (complete_streams ic_out STDOUT inv h cs (or_intror eq_refl) C) as (l' & S').
      split; (split; [tauto|intros _]); [exists l; apply old_inputs_iff|exists l'; apply old_outputs_iff]; eauto.
Qed.
Print Assumptions C82_determined.

(** The records do not give the inputs of the generators: they have the pattern of grep among the inputs,
    and no file operand of cut, but agree with tee. *)
Theorem C82_inputs_refuted : exists inv c ins, with_io shipped_dir inv c /\ old_inputs inv ins /\ ins <> new_inputs c /\
  inv = mkInv "grep" [] ["x"; "f"] /\ ins = [FileName "x"; FileName "f"] /\ new_inputs c = [FileName "f"].
Proof.
  exists (mkInv "grep" [] ["x"; "f"]). eexists. exists [FileName "x"; FileName "f"].
  split; [eexists; split; vm_compute; reflexivity|]. split; [|repeat split; discriminate].
  assert (H : cmd_name (mkInv "grep" [] ["x"; "f"]) = "grep") by reflexivity. record H. apply OI. clear. unfold uses_any, uses. cbn.
  right. split; [intros (n & _ & fo & [] & _)|]. right. split; [discriminate|]. right. split; [intros (n & _ & fo & [] & _)|]. left. auto.
Qed.
Print Assumptions C82_inputs_refuted.
Example C82_cases :
  (exists c, with_io shipped_dir (mkInv "cut" [Option_ "-f" "1"] ["f"]) c /\ ~ inputs_agree (mkInv "cut" [Option_ "-f" "1"] ["f"]) /\
     new_inputs c = [FileName "f"] /\ old_inputs (mkInv "cut" [Option_ "-f" "1"] ["f"]) [StdDescriptor STDIN]) /\
  (exists c, with_io shipped_dir (mkInv "tee" [Flag "-a"] ["f"; "g"]) c /\ outputs_agree (mkInv "tee" [Flag "-a"] ["f"; "g"]) /\
     new_outputs c = [FileName "f"; FileName "g"; StdDescriptor STDOUT]) /\
  (exists c, with_io shipped_dir (mkInv "sort" [Flag "-m"] ["f"; "g"]) c /\ inputs_agree (mkInv "sort" [Flag "-m"] ["f"; "g"]) /\
     new_inputs c = [FileName "f"; FileName "g"]) /\
  recursive_search (mkInv "grep" [Flag "-r"] ["x"; "f"]).
Proof.
  split; [|split; [|split]].
  - assert (N : ~ inputs_agree (mkInv "cut" [Option_ "-f" "1"] ["f"])).
    { intros A. assert (H : cmd_name (mkInv "cut" [Option_ "-f" "1"] ["f"]) = "cut") by reflexivity. case_of H A. match goal with S : stdin_only _ |- _ => destruct S; discriminate end. }
    eexists. split; [eexists; split; vm_compute; reflexivity|]. split; [exact N|]. split; [reflexivity|].
    assert (H : cmd_name (mkInv "cut" [Option_ "-f" "1"] ["f"]) = "cut") by reflexivity. record H. apply OI. right. split; [|left; auto].
    intros ((n & I & J) & _). cbn in I, J. destruct I as [<- |[<- |[]]]; destruct J as [J|[]]; discriminate.
  - eexists. split; [eexists; split; vm_compute; reflexivity|]. split; [|reflexivity]. apply oa_tee; [reflexivity|]. cbn. intuition discriminate.
  - eexists. split; [eexists; split; vm_compute; reflexivity|]. split; [|reflexivity]. apply ia_merge; [pick|exists (Flag "-m"); cbn; auto|cbn; intuition discriminate|left; discriminate].
  - split; [reflexivity|]. split; [intros (fo & [<- |[]] & E); discriminate|]. split; [discriminate|]. exists "-r". split; [cbn; auto|]. exists (Flag "-r"). cbn; auto.
Qed.
