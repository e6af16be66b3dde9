(** * Theorems about input/output information (C13-C24, C52, C55) *)
Require Import Verif.PyBase Verif.JsonData Verif.Parser Verif.Access Verif.IOInfo Verif.IOGen Verif.ShippedData
  Verif.SpecParser Verif.SpecIO Verif.ParserFacts Verif.IOFacts Verif.IOProps Verif.IOGeneral Verif.IOShipped.
From Coq Require Import Permutation Lia.

(** ** C13: applying IO information keeps the invocation *)
Theorem C13_keeps_invocation : forall dir inv i,
  get_input_output_info dir inv = Some i ->
  exists c, apply_io_info i inv = Ok c /\
    io_cmd_name c = cmd_name inv /\
    map text_of (io_operand_list c) = operand_list inv /\
    map (fun x => match x with FlagIO n => Flag n | OptionIO n a => Option_ n (text_of a) end)
      (io_flag_option_list c) = flag_option_list inv.
Proof.
  intros dir inv i H. destruct (info_applies _ _ _ H) as [c A]. exists c. split; [exact A|].
  destruct (with_io_reads dir inv c (ex_intro _ i (conj H A))) as (N & F & O).
  repeat split; [exact N| |].
  - clear -O. induction O as [|s x l l' R O IH]; cbn; [reflexivity|]. now rewrite (reading_text _ _ R), IH.
  - clear -F. induction F as [|fo x l l' R F IH]; cbn; [reflexivity|]. rewrite IH.
    inversion R as [|n s y Ry]; subst; [reflexivity|]. now rewrite (reading_text _ _ Ry).
Qed.
Print Assumptions C13_keeps_invocation.
Example C13_case : exists i, get_input_output_info shipped_dir (mkInv "grep" [Option_ "-f" "pats"; Flag "-i"] ["a"; "-"]) = Some i.
Proof. eexists. vm_compute. reflexivity. Qed.

(** Information applied to a different invocation covers only its first operands. *)
Theorem C13_only_own_invocation : forall i inv c,
  apply_io_info i inv = Ok c ->
  map text_of (io_operand_list c) = firstn (length (operand_list_typer i)) (operand_list inv).
Proof.
  intros i inv c H. destruct (apply_reads _ _ _ H) as (_ & _ & O & _). revert O.
  generalize (firstn (length (operand_list_typer i)) (operand_list inv)) as l. intros l O.
  induction O as [|s x l l' R O IH]; cbn; [reflexivity|]. now rewrite (reading_text _ _ R), IH.
Qed.
Print Assumptions C13_only_own_invocation.
Example C13_only_own_case :
  match get_input_output_info shipped_dir (mkInv "cat" [] ["a"]) with
  | Some i => apply_io_info i (mkInv "cat" [] ["a"; "b"]) = apply_io_info i (mkInv "cat" [] ["a"])
  | None => False
  end.
Proof. vm_compute. reflexivity. Qed.

(** ** C14: the dash *)
Theorem C14_dash : forall i inv c,
  apply_io_info i inv = Ok c ->
  Forall2 arg_reading (firstn (length (operand_list_typer i)) (operand_list inv)) (io_operand_list c) /\
  Forall2 fo_reading (firstn (length (flagoption_list_typer i)) (flag_option_list inv)) (io_flag_option_list c).
Proof. intros i inv c H. destruct (apply_reads _ _ _ H) as (_ & F & O & _). auto. Qed.
Print Assumptions C14_dash.
Example C14_dash_case : exists i c, get_input_output_info shipped_dir (mkInv "sort" [Option_ "-o" "-"] ["-"; "f"]) = Some i /\
  apply_io_info i (mkInv "sort" [Option_ "-o" "-"] ["-"; "f"]) = Ok c /\
  io_flag_option_list c = [OptionIO "-o" (Res (mkRes (StdDescriptor STDOUT) STREAM_OUTPUT))].
Proof. do 2 eexists. split; [vm_compute; reflexivity|]. split; vm_compute; reflexivity. Qed.
Theorem C14_dash_all : forall dir inv c,
  with_io dir inv c ->
  Forall2 arg_reading (operand_list inv) (io_operand_list c) /\
  Forall2 fo_reading (flag_option_list inv) (io_flag_option_list c).
Proof. intros dir inv c H. destruct (with_io_reads _ _ _ H) as (_ & F & O). auto. Qed.
Print Assumptions C14_dash_all.
Example C14_case : exists c, with_io shipped_dir (mkInv "grep" [] ["-"; "-"; "f"]) c /\
  io_operand_list c = [ArgString "-"; Res (mkRes (StdDescriptor STDIN) STREAM_INPUT); Res (mkRes (FileName "f") STREAM_INPUT)].
Proof. eexists. split; [eexists; split; vm_compute; reflexivity|reflexivity]. Qed.
Example C14_case_out : exists c, with_io shipped_dir (mkInv "tee" [] ["-"]) c /\
  io_operand_list c = [Res (mkRes (StdDescriptor STDOUT) STREAM_OUTPUT)].
Proof. eexists. split; [eexists; split; vm_compute; reflexivity|reflexivity]. Qed.

(** ** C15: option arguments are classified as declared *)
Theorem C15_classified_as_declared : forall s inv,
  parse shipped_dir s = Ok inv ->
  exists j fos, loads shipped_dir (cmd_name inv) j /\
    Forall2 (as_listed j) (flag_option_list inv) fos /\
    forall c, with_io shipped_dir inv c -> io_flag_option_list c = fos.
Proof.
  intros s inv P. destruct (shipped_as_listed s inv P) as (j & fos & L & F & A).
  exists j, fos. split; [exact L|]. split; [exact A|]. intros c (i & H & Ap).
  destruct (info_some _ _ _ H) as (g & G & T & _).
  apply typer_applied in F as (ts & T' & F). rewrite T in T'. injection T' as <-.
  unfold apply_io_info in Ap. unfold apply_flagoptions in F. rewrite F in Ap. cbn [bind] in Ap.
  destruct (map_result _ (combine (operand_list inv) _)); [|discriminate]. cbn in Ap. injection Ap as <-. reflexivity.
Qed.
Print Assumptions C15_classified_as_declared.
Theorem C15_never_fails : forall dir s inv j,
  parse dir s = Ok inv -> loads dir (cmd_name inv) j -> classifiable j ->
  exists fos, options_classified dir inv fos.
Proof. exact parsed_classified. Qed.
Print Assumptions C15_never_fails.
Example C15_never_fails_case : exists inv, parse shipped_dir "grep -f pats -A 3 x" = Ok inv /\ loads shipped_dir (cmd_name inv) data_grep /\ classifiable data_grep.
Proof.
  eexists. split; [vm_compute; reflexivity|]. assert (L : loads shipped_dir "grep" data_grep) by (left; vm_compute; reflexivity).
  split; [exact L|]. exact (shipped_classifiable "grep" data_grep L).
Qed.
Theorem C15_shipped_classifiable : forall name j, loads shipped_dir name j -> classifiable j.
Proof. exact shipped_classifiable. Qed.
Print Assumptions C15_shipped_classifiable.
Example C15_case : exists c,
  with_io shipped_dir (mkInv "sort" [Option_ "-o" "out"; Option_ "-k" "2"; Flag "-r"] ["in"]) c /\
  parse shipped_dir "sort --output out -k 2 -r in" = Ok (mkInv "sort" [Option_ "-o" "out"; Option_ "-k" "2"; Flag "-r"] ["in"]) /\
  io_flag_option_list c = [OptionIO "-o" (Res (mkRes (FileName "out") STREAM_OUTPUT)); OptionIO "-k" (ArgString "2"); FlagIO "-r"].
Proof. eexists. split; [eexists; split; vm_compute; reflexivity|split; vm_compute; reflexivity]. Qed.

(** ** C16: exactly when IO information is missing *)
Theorem C16_none_iff : forall dir inv,
  get_input_output_info dir inv = None <->
  ~ In (cmd_name inv) io_commands \/ ~ rule inv \/ ~ exists fos, options_classified dir inv fos.
Proof. exact none_iff. Qed.
Print Assumptions C16_none_iff.
Example C16_none_iff_case : get_input_output_info shipped_dir (mkInv "sort" [Option_ "-unknown" "x"] []) = None /\
  get_input_output_info shipped_dir (mkInv "ls" [] []) = None /\ get_input_output_info shipped_dir (mkInv "grep" [] []) = None /\
  get_input_output_info shipped_dir (mkInv "sort" [Option_ "-k" "1"] []) <> None.
Proof. repeat split; try (vm_compute; reflexivity). vm_compute. discriminate. Qed.
Theorem C16_parsed_none_iff : forall s inv,
  parse shipped_dir s = Ok inv ->
  (get_input_output_info shipped_dir inv = None <-> ~ In (cmd_name inv) io_commands \/ ~ rule inv).
Proof.
  intros s inv P. rewrite none_iff.
  destruct (shipped_as_listed s inv P) as (j & fos & _ & F & _).
  assert (E : exists fos, options_classified shipped_dir inv fos) by eauto. tauto.
Qed.
Print Assumptions C16_parsed_none_iff.
Example C16_case_none : parse shipped_dir "comm a" = Ok (mkInv "comm" [] ["a"]) /\
  get_input_output_info shipped_dir (mkInv "comm" [] ["a"]) = None.
Proof. vm_compute. auto. Qed.
Example C16_case_some : rule (mkInv "comm" [] ["a"; "b"]) /\
  get_input_output_info shipped_dir (mkInv "comm" [] ["a"; "b"]) <> None.
Proof. vm_compute. split; [reflexivity|discriminate]. Qed.

(** ** C17: side effects are announced *)
Theorem C17_other_outputs : forall dir inv i c,
  get_input_output_info dir inv = Some i -> apply_io_info i inv = Ok c ->
  has_other_outputs i = true <->
  (exists x, In x (io_operand_list c) /\ has_access x OTHER_OUTPUT) \/
  (exists n x, In (OptionIO n x) (io_flag_option_list c) /\ has_access x OTHER_OUTPUT).
Proof. exact other_outputs. Qed.
Print Assumptions C17_other_outputs.
Example C17_case : exists i, get_input_output_info shipped_dir (mkInv "sort" [Option_ "-T" "tmp"] []) = Some i /\
  has_other_outputs i = true.
Proof. eexists. split; vm_compute; reflexivity. Qed.

(** ** C18: operand accessors *)
Theorem C18_partition : forall dir inv c,
  with_io dir inv c ->
  Permutation (get_operands_with_config_input c ++ get_operands_with_stream_input c ++
               get_operands_with_other_input c ++ get_operands_with_stream_output c ++
               get_operands_with_other_output c) (io_operand_list c).
Proof. intros dir inv c H. apply (accessors_partition c (with_io_accessible _ _ _ H)). Qed.
Print Assumptions C18_partition.
(** Also for hand-made invocations, if no operand is a container or an exclusion. *)
Theorem C18_partition_general : forall c,
  (forall x, In x (io_operand_list c) -> ~ has_access x CONTAINER_FOR_INPUT /\ ~ has_access x EXCLUDES_FROM_INPUT) ->
  Permutation (get_operands_with_config_input c ++ get_operands_with_stream_input c ++
               get_operands_with_other_input c ++ get_operands_with_stream_output c ++
               get_operands_with_other_output c) (io_operand_list c).
Proof. intros c H. apply accessors_partition. apply Forall_forall. exact H. Qed.
Print Assumptions C18_partition_general.
Example C18_partition_general_case : exists c, with_io shipped_dir (mkInv "uniq" [] ["a"; "b"]) c /\ length (io_operand_list c) = 2 /\
  forall x, In x (io_operand_list c) -> ~ has_access x CONTAINER_FOR_INPUT /\ ~ has_access x EXCLUDES_FROM_INPUT.
Proof.
  eexists. split; [eexists; split; vm_compute; reflexivity|]. split; [reflexivity|].
  intros x [<-|[<-|[]]]; split; intros (el & E); discriminate E.
Qed.
(** Each accessor returns exactly the operands of its kind, in order. *)
Theorem C18_exact : forall c,
  kept (fun x => (exists s, x = ArgString s) \/ has_access x CONFIG_INPUT)
       (io_operand_list c) (get_operands_with_config_input c) /\
  kept (fun x => has_access x STREAM_INPUT) (io_operand_list c) (get_operands_with_stream_input c) /\
  kept (fun x => has_access x OTHER_INPUT) (io_operand_list c) (get_operands_with_other_input c) /\
  kept (fun x => has_access x STREAM_OUTPUT) (io_operand_list c) (get_operands_with_stream_output c) /\
  kept (fun x => has_access x OTHER_OUTPUT) (io_operand_list c) (get_operands_with_other_output c).
Proof.
  intros c. split; [apply accessor_config|].
  repeat (split; [apply accessor_kind; intros []; vm_compute; split; congruence|]).
  apply accessor_kind; intros []; vm_compute; split; congruence.
Qed.
Print Assumptions C18_exact.
Example C18_exact_case : exists c, with_io shipped_dir (mkInv "grep" [] ["pat"; "a"; "b"]) c /\
  get_operands_with_config_input c = [ArgString "pat"] /\ get_operands_with_stream_input c = [in_file STREAM_INPUT "a"; in_file STREAM_INPUT "b"].
Proof. eexists. split; [eexists; split; vm_compute; reflexivity|]. split; vm_compute; reflexivity. Qed.
(** ... and likewise the options that have side effects. *)
Theorem C18_options : forall c,
  kept (fun f => exists n x, f = OptionIO n x /\ has_access x OTHER_OUTPUT)
       (io_flag_option_list c) (get_options_with_other_output c).
Proof. exact accessor_options. Qed.
Print Assumptions C18_options.
Example C18_case : exists c, with_io shipped_dir (mkInv "mv" [] ["a"; "b"; "c"]) c /\
  get_operands_with_other_output c = [Res (mkRes (FileName "c") OTHER_OUTPUT)] /\
  length (get_operands_with_other_input c) = 2.
Proof. eexists. split; [eexists; split; vm_compute; reflexivity|split; vm_compute; reflexivity]. Qed.
Example C18_case_options : exists c, with_io shipped_dir (mkInv "sort" [Flag "-r"; Option_ "-T" "tmp"; Option_ "-k" "1"] ["a"]) c /\
  get_options_with_other_output c = [OptionIO "-T" (Res (mkRes (FileName "tmp") OTHER_OUTPUT))].
Proof. eexists. split; [eexists; split; vm_compute; reflexivity|vm_compute; reflexivity]. Qed.

(** ** C19: cat, cut, head, tail, wc, sort, custom_sort *)
Theorem C19_cat_cut_head_tail : forall dir inv c,
  In (cmd_name inv) ["cat"; "cut"; "head"; "tail"] ->
  with_io dir inv c <->
  shape dir inv c (map (in_file STREAM_INPUT) (operand_list inv)) /\
  stdin_iff c (operand_list inv = []) /\ stdout_iff c True.
Proof.
  intros dir inv c H. apply spec_cat. cbn in H.
  repeat (destruct H as [H|H]; [gen_of H|]). destruct H.
Qed.
Print Assumptions C19_cat_cut_head_tail.
Example C19_cat_case : exists c, with_io shipped_dir (mkInv "head" [Option_ "-n" "1"] ["f"; "-"]) c /\
  io_operand_list c = [in_file STREAM_INPUT "f"; Res stdin] /\ io_implicit_input c = None /\ io_implicit_output c = Some stdout.
Proof. eexists. split; [eexists; split; vm_compute; reflexivity|]. repeat split. Qed.
Theorem C19_wc : forall dir inv c,
  cmd_name inv = "wc" ->
  with_io dir inv c <->
  ~ uses inv "--files0-from" /\ shape dir inv c (map (in_file STREAM_INPUT) (operand_list inv)) /\
  stdin_iff c (operand_list inv = []) /\ stdout_iff c True.
Proof. intros dir inv c H. apply spec_wc. gen_of H. Qed.
Print Assumptions C19_wc.
Example C19_wc_case : exists c, with_io shipped_dir (mkInv "wc" [Flag "-l"] []) c /\ io_implicit_input c = Some stdin /\
  forall c', ~ with_io shipped_dir (mkInv "wc" [Option_ "--files0-from" "f"] []) c'.
Proof.
  eexists. split; [eexists; split; vm_compute; reflexivity|]. split; [reflexivity|].
  intros c' (i & H & _). vm_compute in H. discriminate.
Qed.
Theorem C19_sort : forall dir inv c,
  In (cmd_name inv) ["sort"; "custom_sort"] ->
  with_io dir inv c <->
  shape dir inv c (map (in_file STREAM_INPUT) (operand_list inv)) /\
  stdin_iff c (operand_list inv = [] /\ ~ uses inv "--files0-from") /\ stdout_iff c (~ uses inv "-o").
Proof.
  intros dir inv c H. apply spec_sort. cbn in H.
  repeat (destruct H as [H|H]; [gen_of H|]). destruct H.
Qed.
Print Assumptions C19_sort.
Example C19_case : exists c, with_io shipped_dir (mkInv "sort" [Option_ "-o" "f"] ["-"; "x"]) c /\
  io_implicit_input c = None /\ io_implicit_output c = None.
Proof. eexists. split; [eexists; split; vm_compute; reflexivity|split; reflexivity]. Qed.

(** ** C20: grep and awk *)
Theorem C20_grep : forall dir inv c,
  cmd_name inv = "grep" ->
  let pattern_given := uses inv "-e" \/ uses inv "-f" in
  with_io dir inv c <->
  exists xs, script_operand pattern_given (operand_list inv) xs /\ shape dir inv c xs /\
    stdin_iff c ((pattern_given /\ length (operand_list inv) = 0) \/
                 (~ pattern_given /\ length (operand_list inv) = 1)) /\
    stdout_iff c (~ uses inv "-q").
Proof. intros dir inv c H. apply spec_grep. gen_of H. Qed.
Print Assumptions C20_grep.
Theorem C20_awk : forall dir inv c,
  cmd_name inv = "awk" ->
  with_io dir inv c <->
  exists xs, script_operand (uses inv "-f") (operand_list inv) xs /\ shape dir inv c xs /\
    stdin_iff c ((uses inv "-f" /\ length (operand_list inv) = 0) \/
                 (~ uses inv "-f" /\ length (operand_list inv) = 1)) /\
    stdout_iff c True.
Proof. intros dir inv c H. apply spec_awk. gen_of H. Qed.
Print Assumptions C20_awk.
Example C20_awk_case : exists c, with_io shipped_dir (mkInv "awk" [Option_ "-f" "prog"] ["a"]) c /\
  io_operand_list c = [in_file STREAM_INPUT "a"] /\ io_implicit_input c = None.
Proof. eexists. split; [eexists; split; vm_compute; reflexivity|]. split; reflexivity. Qed.
Example C20_case : exists c, with_io shipped_dir (mkInv "grep" [Flag "-i"] ["pat"]) c /\
  io_operand_list c = [ArgString "pat"] /\ io_implicit_input c = Some stdin.
Proof. eexists. split; [eexists; split; vm_compute; reflexivity|split; reflexivity]. Qed.
Example C20_case_none : forall c, ~ with_io shipped_dir (mkInv "grep" [] []) c.
Proof. intros c (i & H & _). vm_compute in H. discriminate. Qed.

(** ** C21: sed *)
Theorem C21_sed : forall dir inv c,
  cmd_name inv = "sed" ->
  with_io dir inv c <->
  exists xs, script_operand (uses inv "-e" \/ uses inv "-f") (operand_list inv) xs /\ shape dir inv c xs /\
    stdin_iff c True /\ stdout_iff c True.
Proof. intros dir inv c H. apply spec_sed. gen_of H. Qed.
Print Assumptions C21_sed.
Example C21_case : exists c, with_io shipped_dir (mkInv "sed" [] ["s/a/b/"; "f"]) c /\
  io_operand_list c = [ArgString "s/a/b/"; in_file STREAM_INPUT "f"].
Proof. eexists. split; [eexists; split; vm_compute; reflexivity|reflexivity]. Qed.

(** ** C22: comm, diff, uniq, set_diff *)
Theorem C22_comm : forall dir inv c,
  cmd_name inv = "comm" ->
  with_io dir inv c <->
  length (operand_list inv) = 2 /\ shape dir inv c (map (in_file STREAM_INPUT) (operand_list inv)) /\
  stdin_iff c False /\ stdout_iff c True.
Proof. intros dir inv c H. apply spec_comm. gen_of H. Qed.
Print Assumptions C22_comm.
Example C22_comm_case : exists c, with_io shipped_dir (mkInv "comm" [Flag "-1"] ["a"; "-"]) c /\
  io_operand_list c = [in_file STREAM_INPUT "a"; Res stdin] /\ io_implicit_input c = None.
Proof. eexists. split; [eexists; split; vm_compute; reflexivity|]. split; reflexivity. Qed.
Theorem C22_diff : forall dir inv c,
  cmd_name inv = "diff" ->
  with_io dir inv c <->
  shape dir inv c (map (in_file STREAM_INPUT) (operand_list inv)) /\ stdin_iff c False /\ stdout_iff c True.
Proof. intros dir inv c H. apply spec_diff. gen_of H. Qed.
Print Assumptions C22_diff.
Example C22_diff_case : exists c, with_io shipped_dir (mkInv "diff" [] ["a"; "b"]) c /\ length (io_operand_list c) = 2 /\ io_implicit_input c = None.
Proof. eexists. split; [eexists; split; vm_compute; reflexivity|]. split; reflexivity. Qed.
Theorem C22_uniq : forall dir inv c,
  cmd_name inv = "uniq" ->
  with_io dir inv c <->
  (operand_list inv = [] /\ shape dir inv c [] /\ stdin_iff c True /\ stdout_iff c True) \/
  (exists f, operand_list inv = [f] /\ shape dir inv c [in_file STREAM_INPUT f] /\
     stdin_iff c False /\ stdout_iff c True) \/
  (exists f g, operand_list inv = [f; g] /\
     shape dir inv c [in_file STREAM_INPUT f; out_file STREAM_OUTPUT g] /\ stdin_iff c False /\ stdout_iff c False).
Proof. intros dir inv c H. apply spec_uniq. gen_of H. Qed.
Print Assumptions C22_uniq.
Theorem C22_set_diff : forall dir inv c,
  cmd_name inv = "set_diff" ->
  with_io dir inv c <->
  length (operand_list inv) = 1 /\ shape dir inv c (map (in_file CONFIG_INPUT) (operand_list inv)) /\
  stdin_iff c True /\ stdout_iff c True.
Proof. intros dir inv c H. apply spec_set_diff. gen_of H. Qed.
Print Assumptions C22_set_diff.
Example C22_set_diff_case : exists c, with_io shipped_dir (mkInv "set_diff" [] ["a"]) c /\
  io_operand_list c = [in_file CONFIG_INPUT "a"] /\ io_implicit_input c = Some stdin.
Proof. eexists. split; [eexists; split; vm_compute; reflexivity|]. split; reflexivity. Qed.
Example C22_case : exists c, with_io shipped_dir (mkInv "uniq" [Flag "-c"] ["in"; "out"]) c /\
  io_operand_list c = [in_file STREAM_INPUT "in"; out_file STREAM_OUTPUT "out"].
Proof. eexists. split; [eexists; split; vm_compute; reflexivity|reflexivity]. Qed.

(** ** C23: mv, rm, mkfifo, tee *)
Theorem C23_rm_mkfifo : forall dir inv c,
  In (cmd_name inv) ["rm"; "mkfifo"] ->
  with_io dir inv c <->
  shape dir inv c (map (out_file OTHER_OUTPUT) (operand_list inv)) /\ stdin_iff c False /\ stdout_iff c False.
Proof.
  intros dir inv c H. apply spec_rm. cbn in H.
  repeat (destruct H as [H|H]; [gen_of H|]). destruct H.
Qed.
Print Assumptions C23_rm_mkfifo.
Example C23_rm_case : exists c, with_io shipped_dir (mkInv "rm" [Flag "-f"] ["a"; "b"]) c /\
  io_operand_list c = [out_file OTHER_OUTPUT "a"; out_file OTHER_OUTPUT "b"] /\ io_implicit_output c = None.
Proof. eexists. split; [eexists; split; vm_compute; reflexivity|]. split; reflexivity. Qed.
Theorem C23_mv : forall dir inv c,
  cmd_name inv = "mv" ->
  with_io dir inv c <->
  ((exists l o, ~ uses inv "-t" /\ operand_list inv = l ++ [o] /\
      shape dir inv c (map (in_file OTHER_INPUT) l ++ [out_file OTHER_OUTPUT o])) \/
   (length (uses_of inv "-t") = 1 /\ shape dir inv c (map (in_file OTHER_INPUT) (operand_list inv))))
  /\ stdin_iff c False /\ stdout_iff c False.
Proof. intros dir inv c H. apply spec_mv. gen_of H. Qed.
Print Assumptions C23_mv.
Theorem C23_tee : forall dir inv c,
  cmd_name inv = "tee" ->
  with_io dir inv c <->
  shape dir inv c (map (out_file STREAM_OUTPUT) (operand_list inv)) /\ stdin_iff c True /\ stdout_iff c True.
Proof. intros dir inv c H. apply spec_tee. gen_of H. Qed.
Print Assumptions C23_tee.
Example C23_tee_case : exists c, with_io shipped_dir (mkInv "tee" [Flag "-a"] ["a"]) c /\
  io_operand_list c = [out_file STREAM_OUTPUT "a"] /\ io_implicit_input c = Some stdin /\ io_implicit_output c = Some stdout.
Proof. eexists. split; [eexists; split; vm_compute; reflexivity|]. repeat split. Qed.
Example C23_case : exists c, with_io shipped_dir (mkInv "mv" [Option_ "-t" "d"] ["a"; "b"]) c /\
  io_operand_list c = [in_file OTHER_INPUT "a"; in_file OTHER_INPUT "b"].
Proof. eexists. split; [eexists; split; vm_compute; reflexivity|reflexivity]. Qed.

(** ** C24: tr, custom_tr, seq, xargs, col and the test commands *)
Theorem C24_tr_xargs : forall dir inv c,
  In (cmd_name inv) ["tr"; "custom_tr"; "xargs"] ->
  with_io dir inv c <->
  shape dir inv c (map ArgString (operand_list inv)) /\ stdin_iff c True /\ stdout_iff c True.
Proof.
  intros dir inv c H. cbn in H.
  repeat (destruct H as [H|H]; [first [apply spec_tr; gen_of H | apply spec_xargs; gen_of H]|]). destruct H.
Qed.
Print Assumptions C24_tr_xargs.
Theorem C24_seq : forall dir inv c,
  cmd_name inv = "seq" ->
  with_io dir inv c <->
  shape dir inv c (map ArgString (operand_list inv)) /\ stdin_iff c False /\ stdout_iff c True.
Proof. intros dir inv c H. apply spec_seq. gen_of H. Qed.
Print Assumptions C24_seq.
Example C24_seq_case : exists c, with_io shipped_dir (mkInv "seq" [] ["1"; "9"]) c /\ io_operand_list c = [ArgString "1"; ArgString "9"] /\ io_implicit_input c = None.
Proof. eexists. split; [eexists; split; vm_compute; reflexivity|]. split; reflexivity. Qed.
Theorem C24_filters : forall dir inv c,
  In (cmd_name inv) ["col"; "alt_bigrams_aux"; "bigrams_aux"; "test_one"; "test_two"] ->
  with_io dir inv c <->
  shape dir inv c (map (in_file STREAM_INPUT) (operand_list inv)) /\ stdin_iff c True /\ stdout_iff c True.
Proof.
  intros dir inv c H. apply spec_stdin_stdout. cbn in H.
  repeat (destruct H as [H|H]; [gen_of H|]). destruct H.
Qed.
Print Assumptions C24_filters.
Example C24_filters_case : exists c, with_io shipped_dir (mkInv "col" [Flag "-b"] []) c /\ io_implicit_input c = Some stdin /\ io_implicit_output c = Some stdout.
Proof. eexists. split; [eexists; split; vm_compute; reflexivity|]. split; reflexivity. Qed.
Theorem C24_alt_bigram_aux_reduce : forall dir inv c,
  cmd_name inv = "alt_bigram_aux_reduce" ->
  with_io dir inv c <->
  shape dir inv c (map (in_file STREAM_INPUT) (operand_list inv)) /\ stdin_iff c False /\ stdout_iff c True.
Proof. intros dir inv c H. apply spec_alt_reduce. gen_of H. Qed.
Print Assumptions C24_alt_bigram_aux_reduce.
Example C24_alt_case : exists c, with_io shipped_dir (mkInv "alt_bigram_aux_reduce" [] ["a"; "b"]) c /\
  io_operand_list c = [in_file STREAM_INPUT "a"; in_file STREAM_INPUT "b"] /\ io_implicit_input c = None.
Proof. eexists. split; [eexists; split; vm_compute; reflexivity|]. split; reflexivity. Qed.
Example C24_case : exists c, with_io shipped_dir (mkInv "tr" [Flag "-d"] ["x"]) c /\
  io_operand_list c = [ArgString "x"].
Proof. eexists. split; [eexists; split; vm_compute; reflexivity|reflexivity]. Qed.

(** ** C52: access kinds *)
Theorem C52_names : forall a, exists! s, get_access_from_string s = Ok a.
Proof.
  intros a. exists (match a with
    | CONFIG_INPUT => "CONFIG_INPUT" | STREAM_INPUT => "STREAM_INPUT" | CONTAINER_FOR_INPUT => "CONTAINER_FOR_INPUT"
    | EXCLUDES_FROM_INPUT => "EXCLUDES_FROM_INPUT" | OTHER_INPUT => "OTHER_INPUT"
    | STREAM_OUTPUT => "STREAM_OUTPUT" | OTHER_OUTPUT => "OTHER_OUTPUT" end).
  split; [destruct a; reflexivity|]. intros s H. apply access_named_iff in H. unfold access_named in H.
  repeat (destruct H as [[-> ->]|H]; [reflexivity|]). destruct H as [-> ->]. reflexivity.
Qed.
Print Assumptions C52_names.
Theorem C52_other_strings : forall s,
  (exists a, get_access_from_string s = Ok a) \/ get_access_from_string s = Raise GenericException.
Proof.
  intros s. unfold get_access_from_string.
  repeat (match goal with |- context [String.eqb s ?x] => destruct (String.eqb s x); [eauto|] end). auto.
Qed.
Print Assumptions C52_other_strings.
Theorem C52_input_xor_output : forall a, is_any_input a = negb (is_any_output a).
Proof. intros []; reflexivity. Qed.
Print Assumptions C52_input_xor_output.
Theorem C52_one_kind : forall a,
  length (filter (fun p => p a) [is_config_input; is_stream_input; is_container_for_input; is_excludes_from_input;
                                 is_other_input; is_stream_output; is_other_output]) = 1 /\
  (is_stream_input a = true -> is_other_input a = false) /\ (is_stream_output a = true -> is_other_output a = false).
Proof. intros []; vm_compute; auto. Qed.
Print Assumptions C52_one_kind.
Example C52_case : get_access_from_string "STREAM_INPUT" = Ok STREAM_INPUT /\
  get_access_from_string "stream" = Raise GenericException.
Proof. vm_compute. auto. Qed.

(** ** C55: setters *)
Theorem C55_all : forall i,
  retyped (fun _ => True) (FILESTD STREAM_OUTPUT) i (all_operands_are_streaming_outputs i) /\
  retyped (fun _ => True) (FILESTD OTHER_INPUT) i (all_operands_are_other_inputs i) /\
  retyped (fun _ => True) (FILESTD OTHER_OUTPUT) i (all_operands_are_other_outputs i) /\
  retyped (fun _ => True) ARGSTRING i (set_all_operands_as_config_arg_type_string i) /\
  retyped (fun _ => True) ARGSTRING i (set_all_operands_as_arg_string i).
Proof. intros i. do 4 (split; [apply retyped_all|]). apply retyped_all. Qed.
Print Assumptions C55_all.
Example C55_all_case : operand_list_typer (all_operands_are_other_outputs (new_io_info [] 2)) = [FILESTD OTHER_OUTPUT; FILESTD OTHER_OUTPUT].
Proof. reflexivity. Qed.
Theorem C55_some : forall i,
  sets (only_last_operand_is_stream_output i) (is_last i) (FILESTD STREAM_OUTPUT) i /\
  sets (only_last_operand_is_other_output i) (is_last i) (FILESTD OTHER_OUTPUT) i /\
  sets (set_first_operand_as_config_arg_type_string i) (is_first i) ARGSTRING i /\
  sets (set_first_operand_as_config_arg_type_filename_or_std_descriptor i) (is_first i) (FILESTD CONFIG_INPUT) i /\
  sets (all_but_last_operand_is_other_input i) (fun k => ~ is_last i k) (FILESTD OTHER_INPUT) i /\
  sets (all_but_first_operand_is_other_input i) (fun k => ~ is_first i k) (FILESTD OTHER_INPUT) i /\
  sets (all_but_first_operand_is_streaming_output i) (fun k => ~ is_first i k) (FILESTD STREAM_OUTPUT) i.
Proof.
  intros i. split; [apply sets_last|]. split; [apply sets_last|]. split; [apply sets_first|]. split; [apply sets_first|].
  split; [apply sets_but_last|]. split; apply sets_but_first.
Qed.
Print Assumptions C55_some.
(** The setters for streaming inputs only have the announced effect on fresh information ... *)
Theorem C55_streaming_inputs_partial : forall fot n, let i := new_io_info fot n in
  retyped (fun _ => True) (FILESTD STREAM_INPUT) i (all_operands_are_streaming_inputs i) /\
  retyped (fun k => ~ is_last i k) (FILESTD STREAM_INPUT) i (all_but_last_operand_is_streaming_input i) /\
  retyped (fun k => ~ is_first i k) (FILESTD STREAM_INPUT) i (all_but_first_operand_is_streaming_input i).
Proof.
  intros fot n. unfold retyped, new_io_info. cbn. rewrite repeat_length. repeat split; intros; tauto || now apply nth_repeat_lt.
Qed.
Print Assumptions C55_streaming_inputs_partial.
(** ... and none afterwards. *)
Theorem C55_streaming_inputs_refuted : exists i,
  i = all_operands_are_other_outputs (new_io_info [] 1) /\
  ~ retyped (fun _ => True) (FILESTD STREAM_INPUT) i (all_operands_are_streaming_inputs i).
Proof.
  eexists. split; [reflexivity|]. intros (_ & _ & _ & _ & H). destruct (H 0) as [Q _]; [vm_compute; lia|].
  specialize (Q I). vm_compute in Q. discriminate Q.
Qed.
Print Assumptions C55_streaming_inputs_refuted.
Example C55_case : exists i', all_but_first_operand_is_other_input (new_io_info [] 3) = Ok i' /\
  operand_list_typer i' = [FILESTD STREAM_INPUT; FILESTD OTHER_INPUT; FILESTD OTHER_INPUT].
Proof. eexists. split; vm_compute; reflexivity. Qed.
(** Standard streams *)
Theorem C55_implicit : forall b i,
  let i1 := set_implicit_use_of_stdin b i in let i2 := set_implicit_use_of_stdout b i in
  flagoption_list_typer i1 = flagoption_list_typer i /\ operand_list_typer i1 = operand_list_typer i /\
  implicit_output i1 = implicit_output i /\ implicit_input i1 = (if b then Some stdin else implicit_input i) /\
  flagoption_list_typer i2 = flagoption_list_typer i /\ operand_list_typer i2 = operand_list_typer i /\
  implicit_input i2 = implicit_input i /\ implicit_output i2 = (if b then Some stdout else implicit_output i).
Proof. intros [] i; repeat split. Qed.
Print Assumptions C55_implicit.
Example C55_implicit_case : implicit_input (set_implicit_use_of_stdin true (new_io_info [] 0)) = Some stdin /\
  implicit_input (set_implicit_use_of_stdin false (new_io_info [] 0)) = None.
Proof. split; reflexivity. Qed.
