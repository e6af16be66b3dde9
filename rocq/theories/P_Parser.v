(** * Theorems about tokenising and parsing (C01 - C12) *)
Require Import Verif.PyBase Verif.Shlex Verif.JsonData Verif.Parser Verif.ShippedData.
Require Import Verif.SpecShlex Verif.SpecParser.
Require Import Verif.ShlexFacts Verif.ParserFacts Verif.ParserProps Verif.ShippedFacts.
(** How the hypotheses of the concrete cases below are checked *)
Ltac splits := apply split_iff_tokenises; vm_compute; reflexivity.
Ltac loaded := left; vm_compute; reflexivity.
Ltac declared := first [apply flags_spec, mem_In; vm_compute; reflexivity | apply options_spec, mem_In; vm_compute; reflexivity].
Ltac undeclared := first [rewrite <- flags_spec, <- mem_not_In; vm_compute; reflexivity | rewrite <- options_spec, <- mem_not_In; vm_compute; reflexivity].
Ltac first_spelling := first [apply flag_canonical_spec; vm_compute; reflexivity | apply option_canonical_spec; vm_compute; reflexivity].

(** ** C01: quoted words survive tokenisation *)
Theorem C01_split_join : forall ws, shlex_split (shlex_join ws) = Ok ws.
Proof. exact split_join. Qed.
Print Assumptions C01_split_join.
Example C01_case : shlex_split (shlex_join ["tr"; ""; "it's"; "a b"; "\n"]) = Ok ["tr"; ""; "it's"; "a b"; "\n"].
Proof. vm_compute. reflexivity. Qed.

(** The tokeniser decides exactly the grammar of SpecShlex.v. *)
Theorem C01_split_grammar : forall s ws, shlex_split s = Ok ws <-> tokenises s ws.
Proof. exact split_iff_tokenises. Qed.
Print Assumptions C01_split_grammar.
Example C01_case_grammar : tokenises "a'b c'\ d  """"" ["ab c d"; ""].
Proof. apply C01_split_grammar. vm_compute. reflexivity. Qed.

(** ** C02: when parse raises *)
Theorem C02_parse_raises : forall dir s e,
  parse dir s = Raise e <->
  (e = ValueError /\ unfinished s) \/
  (e = IndexError /\ tokenises s []) \/
  (exists name words, tokenises s (name :: words) /\ load_fails dir name e).
Proof. exact parse_raises_iff. Qed.
Print Assumptions C02_parse_raises.
Example C02_case_unfinished : unfinished "grep 'a".
Proof.
  apply (unf_later "" "grep" "grep" " "); simpl; auto; unfold blank; try discriminate; auto.
  - apply all_safe_word. reflexivity.
  - apply (unf_here "" "" ""); simpl; auto; constructor. simpl. intuition discriminate.
Qed.
Example C02_case_empty : parse shipped_dir "  " = Raise IndexError.
Proof. vm_compute. reflexivity. Qed.

(** ** C03: parse loses, invents and reorders nothing *)
Theorem C03_parse_segments : forall dir s inv,
  parse dir s = Ok inv <->
  exists words j, tokenises s (cmd_name inv :: words) /\ loads dir (cmd_name inv) j /\
    segments j words (flag_option_list inv) (operand_list inv).
Proof. exact parse_iff. Qed.
Print Assumptions C03_parse_segments.
Example C03_case : parse shipped_dir "sort --reverse -k 2 -nu in -k" =
  Ok (mkInv "sort" [Flag "-r"; Option_ "-k" "2"; Flag "-n"; Flag "-u"] ["in"; "-k"]).
Proof. vm_compute. reflexivity. Qed.

(** ** C04: where the operands start *)
Theorem C04_operands_start : forall dir s inv j,
  parse dir s = Ok inv -> loads dir (cmd_name inv) j ->
  exists pre, tokenises s (cmd_name inv :: pre ++ operand_list inv) /\
    groups j (pre ++ operand_list inv) (flag_option_list inv) (operand_list inv) /\
    operands_start j (operand_list inv).
Proof. exact parse_operands_start. Qed.
Print Assumptions C04_operands_start.
Example C04_operands_start_case : exists pre, tokenises "grep -v -e '' x y" ("grep" :: pre ++ ["x"; "y"]) /\
  groups data_grep (pre ++ ["x"; "y"]) [Flag "-v"; Option_ "-e" ""] ["x"; "y"] /\ operands_start data_grep ["x"; "y"].
Proof. apply (C04_operands_start shipped_dir "grep -v -e '' x y" (mkInv "grep" [Flag "-v"; Option_ "-e" ""] ["x"; "y"])); [vm_compute; reflexivity|loaded]. Qed.
(** Nothing after the first operand is interpreted: any other non-empty continuation
    is reported verbatim. *)
Theorem C04_operands_opaque : forall dir s s' name j pre w w2 rest rest' fos,
  loads dir name j ->
  tokenises s (name :: pre ++ w :: w2 :: rest) ->
  parse dir s = Ok (mkInv name fos (w :: w2 :: rest)) ->
  rest' <> [] -> tokenises s' (name :: pre ++ w :: rest') ->
  parse dir s' = Ok (mkInv name fos (w :: rest')).
Proof. exact parse_operands_opaque. Qed.
Print Assumptions C04_operands_opaque.
Example C04_operands_opaque_case : parse shipped_dir "grep -v '' -n --count -e y" = Ok (mkInv "grep" [Flag "-v"] [""; "-n"; "--count"; "-e"; "y"]).
Proof.
  apply (C04_operands_opaque shipped_dir "grep -v '' -e x" _ "grep" data_grep ["-v"] "" "-e" ["x"] ["-n"; "--count"; "-e"; "y"]);
    try splits; [loaded|vm_compute; reflexivity|discriminate].
Qed.
Example C04_case : parse shipped_dir "grep -v '' -e x" = Ok (mkInv "grep" [Flag "-v"] [""; "-e"; "x"]).
Proof. vm_compute. reflexivity. Qed.

(** ** C05: synonyms are canonicalised *)
Theorem C05_flag_synonyms : forall dir s s' name j pre post fos w w' l,
  loads dir name j -> flags_unambiguous j -> In (FEList l) (j_flag j) -> In w l -> In w' l ->
  groups j (pre ++ w :: post) fos (w :: post) ->
  tokenises s (name :: pre ++ w :: post) -> tokenises s' (name :: pre ++ w' :: post) ->
  parse dir s = parse dir s'.
Proof. exact parse_flag_synonyms. Qed.
Print Assumptions C05_flag_synonyms.
Example C05_flag_synonyms_case : parse shipped_dir "grep -i --invert-match x" = parse shipped_dir "grep -i -v x".
Proof.
  apply (C05_flag_synonyms shipped_dir _ _ "grep" data_grep ["-i"] ["x"] [Flag "-i"] "--invert-match" "-v" ["-v"; "--invert-match"]); try splits.
  - loaded.
  - apply (shipped_cases "grep.json"); [vm_compute; tauto|discriminate].
  - vm_compute. tauto.
  - vm_compute. tauto.
  - vm_compute. tauto.
  - apply (groups_cons _ _ [Flag "-i"] ["--invert-match"; "x"] []); [|constructor]. apply group_flag; [discriminate|declared|first_spelling].
Qed.
Theorem C05_option_synonyms : forall dir s s' name j pre arg post fos w w' e,
  loads dir name j -> options_unambiguous j -> In e (j_option j) ->
  In w (oe_names e) -> In w' (oe_names e) -> ~ flag_declared j w -> ~ flag_declared j w' ->
  groups j (pre ++ w :: arg :: post) fos (w :: arg :: post) ->
  tokenises s (name :: pre ++ w :: arg :: post) ->
  tokenises s' (name :: pre ++ w' :: arg :: post) ->
  parse dir s = parse dir s'.
Proof. exact parse_option_synonyms. Qed.
Print Assumptions C05_option_synonyms.
Example C05_option_synonyms_case : parse shipped_dir "sort -r --key 2 f" = parse shipped_dir "sort -r -k 2 f".
Proof.
  apply (C05_option_synonyms shipped_dir _ _ "sort" data_sort ["-r"] "2" ["f"] [Flag "-r"] "--key" "-k" (mkOE ["-k"; "--key"] (OAStr "KEYDEF"))); try splits; try undeclared.
  - loaded.
  - apply (shipped_cases "sort.json"). vm_compute. tauto.
  - vm_compute. tauto.
  - vm_compute. tauto.
  - vm_compute. tauto.
  - apply (groups_cons _ _ [Flag "-r"] ["--key"; "2"; "f"] []); [|constructor]. apply group_flag; [discriminate|declared|first_spelling].
Qed.
(** Every shipped file but uniq.json has unambiguous flags, every one unambiguous
    options. *)
Theorem C05_shipped_unambiguous : forall fn j, In (fn, j) shipped_table ->
  (fn <> "uniq.json" -> fn <> "mv.json" -> well_formed j) /\
  (fn <> "uniq.json" -> flags_unambiguous j /\ forall e, In e (j_flag j) -> exists l, e = FEList l /\ l <> []) /\
  (options_unambiguous j /\ forall e, In e (j_option j) -> oe_names e <> []).
Proof. exact shipped_cases. Qed.
Print Assumptions C05_shipped_unambiguous.
Example C05_case : parse shipped_dir "grep -i --invert-match x" = parse shipped_dir "grep -i -v x"
  /\ groups data_grep ["-i"; "-v"; "x"] [Flag "-i"] ["-v"; "x"].
Proof.
  split; [vm_compute; reflexivity|].
  apply (groups_cons _ _ [Flag "-i"] ["-v"; "x"] []); [|constructor].
  apply group_flag; [discriminate|apply flags_spec, mem_In; vm_compute; reflexivity|].
  apply flag_canonical_spec. vm_compute. reflexivity.
Qed.

(** ** C06: bundles of one-letter flags *)
Theorem C06_bundle_split_partial : forall dir s s' name j pre post fos w cs,
  loads dir name j ->
  bundle j w cs -> ~ flag_declared j w -> (option_declared j w -> post = []) ->
  (forall c, In c cs -> flag_canonical j (letter_flag c) (letter_flag c)) ->
  groups j (pre ++ w :: post) fos (w :: post) ->
  tokenises s (name :: pre ++ w :: post) ->
  tokenises s' (name :: pre ++ map letter_flag cs ++ post) ->
  parse dir s = parse dir s'.
Proof. exact parse_bundle_split. Qed.
Print Assumptions C06_bundle_split_partial.
Example C06_bundle_split_case : parse shipped_dir "sort -rnu -k 1 f" = parse shipped_dir "sort -r -n -u -k 1 f".
Proof.
  apply (C06_bundle_split_partial shipped_dir _ _ "sort" data_sort [] ["-k"; "1"; "f"] [] "-rnu" ["r"; "n"; "u"]%char); try splits; try undeclared.
  - loaded.
  - split; [discriminate|]. split; [reflexivity|]. intros c [<-|[<-|[<-|[]]]]; declared.
  - intros D. apply options_spec, mem_In in D. vm_compute in D. discriminate D.
  - intros c [<-|[<-|[<-|[]]]]; first_spelling.
  - constructor.
Qed.
(** Without the condition on the letters the two results differ exactly in that the
    bundle keeps letters which are not first spellings. *)
Theorem C06_bundle_general : forall dir s s' name j pre post fos w cs,
  loads dir name j ->
  bundle j w cs -> ~ flag_declared j w -> (option_declared j w -> post = []) ->
  groups j (pre ++ w :: post) fos (w :: post) ->
  tokenises s (name :: pre ++ w :: post) ->
  tokenises s' (name :: pre ++ map letter_flag cs ++ post) ->
  exists ps fos' ops,
    Forall2 (fun c p => flag_canonical j (letter_flag c) p) cs ps /\
    parse dir s = Ok (mkInv name (fos ++ map (fun c => Flag (letter_flag c)) cs ++ fos') ops) /\
    parse dir s' = Ok (mkInv name (fos ++ map Flag ps ++ fos') ops).
Proof. exact parse_bundle_general. Qed.
Print Assumptions C06_bundle_general.
Example C06_bundle_general_case : exists ps fos' ops,
  Forall2 (fun c p => flag_canonical data_tr (letter_flag c) p) ["C"; "d"]%char ps /\
  parse shipped_dir "tr -Cd a" = Ok (mkInv "tr" ([] ++ map (fun c => Flag (letter_flag c)) ["C"; "d"]%char ++ fos') ops) /\
  parse shipped_dir "tr -C -d a" = Ok (mkInv "tr" ([] ++ map Flag ps ++ fos') ops).
Proof.
  apply (C06_bundle_general shipped_dir _ _ "tr" data_tr [] ["a"] [] "-Cd" ["C"; "d"]%char); try splits; try undeclared.
  - loaded.
  - split; [discriminate|]. split; [reflexivity|]. intros c [<-|[<-|[]]]; declared.
  - intros D. apply options_spec, mem_In in D. vm_compute in D. discriminate D.
  - constructor.
Qed.
(** The claim as stated is false: tr -Cd is not parsed like tr -C -d. *)
Theorem C06_bundle_split_refuted :
  exists dir s s' name j w cs ops,
    loads dir name j /\ bundle j w cs /\ ~ flag_declared j w /\ ~ option_declared j w /\
    tokenises s (name :: w :: ops) /\ tokenises s' (name :: map letter_flag cs ++ ops) /\
    parse dir s <> parse dir s'.
Proof.
  exists shipped_dir, "tr -Cd a", "tr -C -d a", "tr", data_tr, "-Cd", ["C"%char; "d"%char], ["a"].
  rewrite <- flags_spec, <- options_spec, <- !mem_not_In, <- !C01_split_grammar.
  repeat split; try (vm_compute; reflexivity); try (vm_compute; discriminate).
  - left. vm_compute. reflexivity.
  - intros c [<-|[<-|[]]]; apply flags_spec, mem_In; vm_compute; reflexivity.
Qed.
Print Assumptions C06_bundle_split_refuted.
Example C06_case : parse shipped_dir "sort -rnu -k 1 f" = parse shipped_dir "sort -r -n -u -k 1 f".
Proof. vm_compute. reflexivity. Qed.

(** ** C07: option arguments *)
Theorem C07_option_consumes : forall dir s name j ws fos w arg rest p,
  loads dir name j -> tokenises s (name :: ws) ->
  groups j ws fos (w :: arg :: rest) ->
  w <> "" -> ~ flag_declared j w -> option_declared j w -> option_canonical j w p ->
  exists fos' ops, segments j rest fos' ops /\
    parse dir s = Ok (mkInv name (fos ++ Option_ p arg :: fos') ops).
Proof. exact parse_option_consumes. Qed.
Print Assumptions C07_option_consumes.
Example C07_option_consumes_case : exists fos' ops, segments data_grep ["-v"; "x"] fos' ops /\
  parse shipped_dir "grep -i -e -f -v x" = Ok (mkInv "grep" ([Flag "-i"] ++ Option_ "-e" "-f" :: fos') ops).
Proof.
  apply (C07_option_consumes shipped_dir _ "grep" data_grep ["-i"; "-e"; "-f"; "-v"; "x"] [Flag "-i"] "-e" "-f"); try splits; try undeclared; try declared.
  - loaded.
  - apply (groups_cons _ _ [Flag "-i"] ["-e"; "-f"; "-v"; "x"] []); [|constructor]. apply group_flag; [discriminate|declared|first_spelling].
  - discriminate.
  - first_spelling.
Qed.
Theorem C07_trailing_option : forall dir s name j ws fos w,
  loads dir name j -> tokenises s (name :: ws) -> groups j ws fos [w] -> ~ flag_declared j w ->
  (parse dir s = Ok (mkInv name fos [w]) /\ forall cs, ~ bundle j w cs) \/
  (exists cs, bundle j w cs /\
     parse dir s = Ok (mkInv name (fos ++ map (fun c => Flag (letter_flag c)) cs) [])).
Proof. exact parse_trailing_option. Qed.
Print Assumptions C07_trailing_option.
Example C07_trailing_option_case : (parse shipped_dir "grep -i -f" = Ok (mkInv "grep" [Flag "-i"] ["-f"]) /\ forall cs, ~ bundle data_grep "-f" cs) \/
  (exists cs, bundle data_grep "-f" cs /\ parse shipped_dir "grep -i -f" = Ok (mkInv "grep" ([Flag "-i"] ++ map (fun c => Flag (letter_flag c)) cs) [])).
Proof.
  apply (C07_trailing_option shipped_dir _ "grep" data_grep ["-i"; "-f"]); try splits; try undeclared.
  - loaded.
  - apply (groups_cons _ _ [Flag "-i"] ["-f"] []); [|constructor]. apply group_flag; [discriminate|declared|first_spelling].
Qed.
Example C07_case : parse shipped_dir "grep -e -v -A '' -f" =
  Ok (mkInv "grep" [Option_ "-e" "-v"; Option_ "-A" ""] ["-f"]).
Proof. vm_compute. reflexivity. Qed.

(** ** C08: unknown commands *)
Theorem C08_unknown_command : forall dir s name ws j,
  tokenises s (name :: ws) -> dir (name +++ ".json") = FNotFound ->
  dir default_file = FFound j -> j_flag j = [] -> j_option j = [] ->
  parse dir s = Ok (mkInv name [] ws).
Proof. exact parse_unknown. Qed.
Print Assumptions C08_unknown_command.
Example C08_unknown_command_case : parse shipped_dir "mycmd -x 'a b'" = Ok (mkInv "mycmd" [] ["-x"; "a b"]).
Proof. apply (C08_unknown_command shipped_dir _ "mycmd" _ data_default_data_for_commands); try splits; vm_compute; reflexivity. Qed.
Example C08_case : parse shipped_dir "mycmd -x --y=1 f" = Ok (mkInv "mycmd" [] ["-x"; "--y=1"; "f"])
  /\ shipped_dir default_file = FFound data_default_data_for_commands
  /\ j_flag data_default_data_for_commands = [] /\ j_option data_default_data_for_commands = [].
Proof. vm_compute. auto. Qed.

(** ** C09: reparsing *)
Theorem C09_reparse_partial : forall dir s inv j,
  parse dir s = Ok inv -> loads dir (cmd_name inv) j ->
  names_canonical j (flag_option_list inv) ->
  parse dir (shlex_join (inv_words inv)) = Ok inv.
Proof. exact reparse_inv. Qed.
Print Assumptions C09_reparse_partial.
Example C09_reparse_partial_case : parse shipped_dir (shlex_join ["sort"; "-r"; "-n"; "-k"; "1"; "a b"]) = Ok (mkInv "sort" [Flag "-r"; Flag "-n"; Option_ "-k" "1"] ["a b"]).
Proof.
  apply (C09_reparse_partial shipped_dir "sort -rn --key 1 'a b'" (mkInv "sort" [Flag "-r"; Flag "-n"; Option_ "-k" "1"] ["a b"]) data_sort); [vm_compute; reflexivity|loaded|].
  intros fo [<-|[<-|[<-|[]]]]; repeat split; try discriminate; try first_spelling; undeclared.
Qed.
(** For well-formed data the side condition is necessary and sufficient. *)
Theorem C09_reparse_iff : forall dir s inv j,
  parse dir s = Ok inv -> loads dir (cmd_name inv) j -> well_formed j ->
  (parse dir (shlex_join (inv_words inv)) = Ok inv <->
   forall n, In (Flag n) (flag_option_list inv) -> flag_canonical j n n).
Proof. exact reparse_inv_iff. Qed.
Print Assumptions C09_reparse_iff.
Example C09_reparse_iff_case : parse shipped_dir (shlex_join ["rm"; "-f"; "-R"; "d"]) = Ok (mkInv "rm" [Flag "-f"; Flag "-R"] ["d"]) <->
  forall n, In (Flag n) [Flag "-f"; Flag "-R"] -> flag_canonical data_rm n n.
Proof.
  apply (C09_reparse_iff shipped_dir "rm -fR d" (mkInv "rm" [Flag "-f"; Flag "-R"] ["d"])); [vm_compute; reflexivity|loaded|].
  apply (shipped_cases "rm.json"); [vm_compute; tauto|discriminate|discriminate].
Qed.
Theorem C09_reparse_refuted : exists s inv,
  parse shipped_dir s = Ok inv /\ parse shipped_dir (shlex_join (inv_words inv)) <> Ok inv.
Proof.
  exists "rm -fR d", (mkInv "rm" [Flag "-f"; Flag "-R"] ["d"]).
  split; [vm_compute; reflexivity|vm_compute; discriminate].
Qed.
Print Assumptions C09_reparse_refuted.
Example C09_case : well_formed data_sort /\
  exists inv, parse shipped_dir "sort -rn --key 1 'a b'" = Ok inv /\
    parse shipped_dir (shlex_join (inv_words inv)) = Ok inv.
Proof.
  split.
  - apply (C05_shipped_unambiguous "sort.json"); try discriminate. vm_compute. tauto.
  - eexists. split; vm_compute; reflexivity.
Qed.

(** ** C10: only declared names are reported *)
Theorem C10_declared : forall dir s inv j fo,
  parse dir s = Ok inv -> loads dir (cmd_name inv) j -> In fo (flag_option_list inv) ->
  match fo with
  | Flag n => flag_declared j n
  | Option_ n _ => exists e others, In e (j_option j) /\ oe_names e = n :: others
  end.
Proof. exact parse_declared. Qed.
Print Assumptions C10_declared.
Example C10_case : exists inv, parse shipped_dir "sort --key 2 -r" = Ok inv /\
  In (Option_ "-k" "2") (flag_option_list inv) /\ loads shipped_dir "sort" data_sort.
Proof. eexists. split; [vm_compute; reflexivity|]. split; [simpl; auto|left; vm_compute; reflexivity]. Qed.

(** ** C11: --option=value *)
(** With the shipped data such a word always starts the operands, whatever the
    command, the name and the value. *)
Theorem C11_equals_is_operand : forall name opt value rest s,
  tokenises s (name :: ("--" +++ opt +++ "=" +++ value) :: rest) ->
  parse shipped_dir s = Ok (mkInv name [] (("--" +++ opt +++ "=" +++ value) :: rest)).
Proof. exact equals_word_operand. Qed.
Print Assumptions C11_equals_is_operand.
Example C11_equals_is_operand_case : parse shipped_dir "sort --key=2 -r f" = Ok (mkInv "sort" [] ["--key=2"; "-r"; "f"]).
Proof. apply (C11_equals_is_operand "sort" "key" "2" ["-r"; "f"]). splits. Qed.
Theorem C11_equals_split_refuted : exists name opt value j,
  loads shipped_dir name j /\ option_declared j ("--" +++ opt) /\
  parse shipped_dir (shlex_join [name; "--" +++ opt +++ "=" +++ value]) <>
  parse shipped_dir (shlex_join [name; "--" +++ opt; value]).
Proof.
  exists "sort", "key", "2", data_sort. repeat split.
  - left. vm_compute. reflexivity.
  - apply options_spec, mem_In. vm_compute. reflexivity.
  - vm_compute. discriminate.
Qed.
Print Assumptions C11_equals_split_refuted.
Example C11_case : parse shipped_dir "sort --key=2 -r f" = Ok (mkInv "sort" [] ["--key=2"; "-r"; "f"]).
Proof. vm_compute. reflexivity. Qed.

(** ** C12: shipped data is understood as written *)
Theorem C12_flags_as_written_partial : forall name j s w p rest,
  name <> "uniq" -> loads shipped_dir name j -> written_flag j w p ->
  tokenises s (name :: w :: rest) ->
  exists fos ops, segments j rest fos ops /\ parse shipped_dir s = Ok (mkInv name (Flag p :: fos) ops).
Proof. exact parse_written_flag. Qed.
Print Assumptions C12_flags_as_written_partial.
Example C12_flags_as_written_case : exists fos ops, segments data_cat ["-n"; "f"] fos ops /\ parse shipped_dir "cat -vE -n f" = Ok (mkInv "cat" (Flag "-e" :: fos) ops).
Proof. apply (C12_flags_as_written_partial "cat" data_cat _ "-vE" "-e"); try splits; [discriminate|loaded|]. left. exists ["-vE"]. vm_compute. tauto. Qed.
Theorem C12_options_as_written_partial : forall name j s w p arg rest,
  loads shipped_dir name j -> written_option j w p -> ~ flag_declared j w ->
  tokenises s (name :: w :: arg :: rest) ->
  exists fos ops, segments j rest fos ops /\
    parse shipped_dir s = Ok (mkInv name (Option_ p arg :: fos) ops).
Proof. exact parse_written_option. Qed.
Print Assumptions C12_options_as_written_partial.
Example C12_options_as_written_case : exists fos ops, segments data_sort ["-r"; "f"] fos ops /\ parse shipped_dir "sort --key 2 -r f" = Ok (mkInv "sort" (Option_ "-k" "2" :: fos) ops).
Proof.
  apply (C12_options_as_written_partial "sort" data_sort _ "--key" "-k"); try splits; try undeclared; [loaded|].
  exists (mkOE ["-k"; "--key"] (OAStr "KEYDEF")), ["--key"]. vm_compute. tauto.
Qed.
(** The only option spelling that is also a flag is mv --backup. *)
Theorem C12_shadowed_options : forall name j w,
  loads shipped_dir name j -> option_declared j w -> flag_declared j w ->
  name = "mv" /\ w = "--backup".
Proof. exact mv_only_shadowed. Qed.
Print Assumptions C12_shadowed_options.
Example C12_shadowed_options_case : loads shipped_dir "mv" data_mv /\ option_declared data_mv "--backup" /\ flag_declared data_mv "--backup".
Proof. split; [loaded|]. split; declared. Qed.
Theorem C12_nothing_else_partial : forall name j s w p,
  name <> "uniq" -> loads shipped_dir name j -> tokenises s [name; w] ->
  parse shipped_dir s = Ok (mkInv name [Flag p] []) -> written_flag j w p.
Proof. exact parse_nothing_else. Qed.
Print Assumptions C12_nothing_else_partial.
Example C12_nothing_else_case : written_flag data_cat "-vE" "-e".
Proof. apply (C12_nothing_else_partial "cat" data_cat "cat -vE"); try splits; [discriminate|loaded|vm_compute; reflexivity]. Qed.
(** uniq: the declared -f is not recognised, and the undeclared f is. *)
Theorem C12_uniq_refuted :
  written_flag data_uniq "-f" "-f" /\
  parse shipped_dir "uniq -f" = Ok (mkInv "uniq" [] ["-f"]) /\
  ~ (exists p, written_flag data_uniq "f" p) /\
  parse shipped_dir "uniq f" = Ok (mkInv "uniq" [Flag "-"] []).
Proof.
  split; [|split; [vm_compute; reflexivity|split; [|vm_compute; reflexivity]]].
  - right. split; auto. vm_compute. tauto.
  - intros (p & [(others & H1 & H2)|[H1 H2]]).
    + assert (X : forallb (fun e => match e with FEList l => negb (mem "f" l) | _ => true end)
                          (j_flag data_uniq) = true) by (vm_compute; reflexivity).
      rewrite forallb_forall in X. apply X in H1. apply mem_In in H2. rewrite H2 in H1. discriminate.
    + vm_compute in H1. repeat destruct H1 as [H1|H1]; try discriminate; auto.
Qed.
Print Assumptions C12_uniq_refuted.
(** mv: the option --backup is shadowed by the flag of the same spelling. *)
Theorem C12_mv_backup_refuted :
  written_option data_mv "--backup" "--backup" /\
  parse shipped_dir "mv --backup none a b" = Ok (mkInv "mv" [Flag "-b"] ["none"; "a"; "b"]).
Proof.
  split; [|vm_compute; reflexivity].
  exists (mkOE ["--backup"] (OAStr "CONTROL")), []. vm_compute. auto.
Qed.
Print Assumptions C12_mv_backup_refuted.
Example C12_case : In ("cat.json", data_cat) shipped_table /\ written_flag data_cat "-vE" "-e".
Proof. split; [vm_compute; tauto|]. left. exists ["-vE"]. vm_compute. tauto. Qed.
