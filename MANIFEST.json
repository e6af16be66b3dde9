{
 "claims": [
  {
   "property": "C01",
   "status": "proved",
   "theorems": [
    "C01_split_join",
    "C01_split_grammar"
   ],
   "note": "also proves that the tokeniser decides an independent grammar of shell words"
  },
  {
   "property": "C02",
   "status": "proved",
   "theorems": [
    "C02_parse_raises"
   ],
   "note": "iff, for every data directory"
  },
  {
   "property": "C03",
   "status": "proved",
   "theorems": [
    "C03_parse_segments"
   ],
   "note": "iff with a declarative segmentation, hence also deterministic and total"
  },
  {
   "property": "C04",
   "status": "proved",
   "theorems": [
    "C04_operands_start",
    "C04_operands_opaque"
   ],
   "note": ""
  },
  {
   "property": "C05",
   "status": "proved",
   "theorems": [
    "C05_flag_synonyms",
    "C05_option_synonyms",
    "C05_shipped_unambiguous"
   ],
   "note": "for data with unambiguous spellings; all shipped files but uniq.json have unambiguous flags, all have unambiguous options"
  },
  {
   "property": "C06",
   "status": "partial",
   "theorems": [
    "C06_bundle_split_partial",
    "C06_bundle_general",
    "C06_bundle_split_refuted"
   ],
   "note": "refuted as stated (tr -Cd vs tr -C -d); holds when the letters are first spellings; the exact difference is C06_bundle_general"
  },
  {
   "property": "C07",
   "status": "proved",
   "theorems": [
    "C07_option_consumes",
    "C07_trailing_option"
   ],
   "note": ""
  },
  {
   "property": "C08",
   "status": "proved",
   "theorems": [
    "C08_unknown_command"
   ],
   "note": ""
  },
  {
   "property": "C09",
   "status": "partial",
   "theorems": [
    "C09_reparse_partial",
    "C09_reparse_iff",
    "C09_reparse_refuted"
   ],
   "note": "refuted as stated (rm -fR d); exact condition in C09_reparse_iff"
  },
  {
   "property": "C10",
   "status": "proved",
   "theorems": [
    "C10_declared"
   ],
   "note": ""
  },
  {
   "property": "C11",
   "status": "partial",
   "theorems": [
    "C11_equals_is_operand",
    "C11_equals_split_refuted"
   ],
   "note": "refuted: the README claim is false for every option, the word always becomes the first operand (C11_equals_is_operand)"
  },
  {
   "property": "C12",
   "status": "partial",
   "theorems": [
    "C12_flags_as_written_partial",
    "C12_options_as_written_partial",
    "C12_shadowed_options",
    "C12_nothing_else_partial",
    "C12_uniq_refuted",
    "C12_mv_backup_refuted"
   ],
   "note": "refuted for uniq (string entries in the flag list) and mv --backup; proved for all other shipped files"
  },
  {
   "property": "C13",
   "status": "proved",
   "theorems": [
    "C13_keeps_invocation",
    "C13_only_own_invocation"
   ],
   "note": "also what happens when the information is applied to another invocation (only its first operands are kept)"
  },
  {
   "property": "C14",
   "status": "proved",
   "theorems": [
    "C14_dash",
    "C14_dash_all"
   ],
   "note": ""
  },
  {
   "property": "C15",
   "status": "proved",
   "theorems": [
    "C15_classified_as_declared",
    "C15_never_fails",
    "C15_shipped_classifiable"
   ],
   "note": "shipped data; C15_never_fails for any classifiable data"
  },
  {
   "property": "C16",
   "status": "proved",
   "theorems": [
    "C16_none_iff",
    "C16_parsed_none_iff"
   ],
   "note": "iff for every data directory; parsed invocations of shipped commands never fail on options"
  },
  {
   "property": "C17",
   "status": "proved",
   "theorems": [
    "C17_other_outputs"
   ],
   "note": ""
  },
  {
   "property": "C18",
   "status": "proved",
   "theorems": [
    "C18_partition",
    "C18_partition_general",
    "C18_exact",
    "C18_options"
   ],
   "note": "hand-made invocations with container or exclusion operands are excluded from the coverage claim, as stated"
  },
  {
   "property": "C19",
   "status": "proved",
   "theorems": [
    "C19_cat_cut_head_tail",
    "C19_wc",
    "C19_sort"
   ],
   "note": "iff: full characterisation of the applied invocation"
  },
  {
   "property": "C20",
   "status": "proved",
   "theorems": [
    "C20_grep",
    "C20_awk"
   ],
   "note": "iff: full characterisation of the applied invocation"
  },
  {
   "property": "C21",
   "status": "proved",
   "theorems": [
    "C21_sed"
   ],
   "note": "iff: full characterisation of the applied invocation"
  },
  {
   "property": "C22",
   "status": "proved",
   "theorems": [
    "C22_comm",
    "C22_diff",
    "C22_uniq",
    "C22_set_diff"
   ],
   "note": "iff: full characterisation of the applied invocation"
  },
  {
   "property": "C23",
   "status": "proved",
   "theorems": [
    "C23_rm_mkfifo",
    "C23_mv",
    "C23_tee"
   ],
   "note": "iff: full characterisation of the applied invocation"
  },
  {
   "property": "C24",
   "status": "proved",
   "theorems": [
    "C24_tr_xargs",
    "C24_seq",
    "C24_filters",
    "C24_alt_bigram_aux_reduce"
   ],
   "note": "iff: full characterisation of the applied invocation"
  },
  {
   "property": "C25",
   "status": "proved",
   "theorems": [
    "C25_exact",
    "C25_cat_flag_never_set",
    "C25_table_is_a_function"
   ],
   "note": "iff with an independent table, for every data directory"
  },
  {
   "property": "C26",
   "status": "proved",
   "theorems": [
    "C26_constructors",
    "C26_constructor_rejects",
    "C26_everything_returned"
   ],
   "note": ""
  },
  {
   "property": "C27",
   "status": "proved",
   "theorems": [
    "C27_inferred",
    "C27_inferred_only",
    "C27_never_partial"
   ],
   "note": "including termination of the loop that appends to the list it runs over"
  },
  {
   "property": "C28",
   "status": "partial",
   "theorems": [
    "C28_same_answer_refuted",
    "C28_same_answer_iff",
    "C28_every_call_adds",
    "C28_only_sort"
   ],
   "note": "refuted for sort (every call adds parallelizers, since the loop appends to the stored list); exact condition in C28_same_answer_iff, exact answers in C28_every_call_adds"
  },
  {
   "property": "C29",
   "status": "proved",
   "theorems": [
    "C29_never_none",
    "C29_obtainable_refuted",
    "C29_annotated",
    "C29_concat_obtainable"
   ],
   "note": "for specs that respect the declared Literal types; C29_obtainable_refuted: some parts marked as implemented always raise"
  },
  {
   "property": "C30",
   "status": "proved",
   "theorems": [
    "C30_filter",
    "C30_remove",
    "C30_add",
    "C30_others",
    "C30_chain",
    "C30_nothing_else",
    "C30_add_keeps_own_duplicates_refuted"
   ],
   "note": "the comment of the code about duplicates is refuted separately"
  },
  {
   "property": "C31",
   "status": "proved",
   "theorems": [
    "C31_actual_aggregator",
    "C31_sort_flags",
    "C31_no_output_file"
   ],
   "note": "both the transformer and the aggregator actually obtained"
  },
  {
   "property": "C32",
   "status": "partial",
   "theorems": [
    "C32_context_gets_concat_refuted",
    "C32_grep_iff"
   ],
   "note": "refuted: grep with -m/-A/-B/-C always gets concatenation (unless -q); exact condition in C32_grep_iff"
  },
  {
   "property": "C33",
   "status": "partial",
   "theorems": [
    "C33_newline_refuted",
    "C33_word_splitter_refuted",
    "C33_concat_iff",
    "C33_recognised_partial"
   ],
   "note": "refuted (tr -d '\\n'; tr -cs A-Za-z '\\n'); exact condition in C33_concat_iff"
  },
  {
   "property": "C34",
   "status": "proved",
   "theorems": [
    "C34_skeleton",
    "C34_inputs",
    "C34_outputs",
    "C34_both"
   ],
   "note": "inputs, outputs and both; C34_skeleton says that the skeleton, the variables and the accesses determine the invocation"
  },
  {
   "property": "C35",
   "status": "proved",
   "theorems": [
    "C35_number"
   ],
   "note": "the three outcomes are characterised exactly, for inputs and outputs"
  },
  {
   "property": "C36",
   "status": "partial",
   "theorems": [
    "C36_any_variables_refuted",
    "C36_iff"
   ],
   "note": "refuted; C36_iff gives the exact condition on the new variables"
  },
  {
   "property": "C37",
   "status": "proved",
   "theorems": [
    "C37_inputs",
    "C37_outputs",
    "C37_other_outputs",
    "C37_missing",
    "C37_unchanged"
   ],
   "note": "including KeyError for a variable without access"
  },
  {
   "property": "C38",
   "status": "partial",
   "theorems": [
    "C38_options_refuted",
    "C38_options_ignored",
    "C38_options_with_io_partial"
   ],
   "note": "refuted for OptionWithIOVar, which is never looked into (C38_options_ignored); holds for OptionWithIO"
  },
  {
   "property": "C39",
   "status": "proved",
   "theorems": [
    "C39_removed",
    "C39_succeeds_iff"
   ],
   "note": "including the exact condition for ValueError"
  },
  {
   "property": "C40",
   "status": "proved",
   "theorems": [
    "C40_replaced",
    "C40_absent",
    "C40_rejected"
   ],
   "note": "including the rejected calls"
  },
  {
   "property": "C41",
   "status": "proved",
   "theorems": [
    "C41_histories",
    "C41_no_leftovers"
   ],
   "note": "all finite histories of the nine calls; also no access is left over"
  },
  {
   "property": "C42",
   "status": "partial",
   "theorems": [
    "C42_usable_refuted",
    "C42_skeleton_partial",
    "C42_too_many_partial",
    "C42_too_few",
    "C42_too_few_iff"
   ],
   "note": "refuted for too few variables (C42_usable_refuted). With fresh variables the outcome is exact: with too many the invocation is the substituted one and consistent (C42_too_many_partial); with too few, C42_too_few says which fields have got new names and which accesses have moved, and C42_too_few_iff that the invocation is still consistent iff the variables ran out between two of the four fields. The skeleton is kept in all cases (C42_skeleton_partial)."
  },
  {
   "property": "C43",
   "status": "proved",
   "theorems": [
    "C43_none_iff",
    "C43_mapper",
    "C43_one_each"
   ],
   "note": "including the exact condition for success"
  },
  {
   "property": "C44",
   "status": "proved",
   "theorems": [
    "C44_mapper",
    "C44_rejects",
    "C44_leftovers_refuted"
   ],
   "note": "including the exact condition for success; accesses of the former implicit input and output are not dropped (C44_leftovers_refuted)"
  },
  {
   "property": "C45",
   "status": "proved",
   "theorems": [
    "C45_cat"
   ],
   "note": "any number of inputs"
  },
  {
   "property": "C46",
   "status": "partial",
   "theorems": [
    "C46_aggregator",
    "C46_rejects",
    "C46_output_ignored_refuted",
    "C46_sort_o_refuted",
    "C46_leftovers_refuted"
   ],
   "note": "proved if the original has an implicit output; otherwise the given output is ignored (refuted, e.g. sort -o)"
  },
  {
   "property": "C47",
   "status": "proved",
   "theorems": [
    "C47_aggregator",
    "C47_rejects",
    "C47_with_aux",
    "C47_unimplemented_refuted",
    "C47_operands_dropped"
   ],
   "note": "with and without auxiliary variables; C47_unimplemented_refuted: with auxiliary variables is_implemented and the kind are not checked"
  },
  {
   "property": "C48",
   "status": "proved",
   "theorems": [
    "C48_mapper",
    "C48_aggregator",
    "C48_with_aux",
    "C48_any_arguments",
    "C48_planning",
    "C48_result_used",
    "C48_original_used",
    "C48_deepcopy_total"
   ],
   "note": "Heap model with references and deepcopy. The outcome equals the model of values (C43-C47) for transformers that add no OptionWithIOVar; unchangedness (C48_any_arguments) has no such condition. Later changes are those of an arbitrary program that starts from the results (C48_result_used) or from older objects (C48_original_used)."
  },
  {
   "property": "C49",
   "status": "partial",
   "theorems": [
    "C49_overwrites_refuted",
    "C49_never_creates_refuted",
    "C49_nothing_else_partial"
   ],
   "note": "refuted: an existing readable and writable file is overwritten and an absent target is never created; proved: nothing but that target ever changes"
  },
  {
   "property": "C50",
   "status": "partial",
   "theorems": [
    "C50_one_result",
    "C50_sort_partial",
    "C50_random_refuted",
    "C50_debug_refuted",
    "C50_sort_iff",
    "C50_sort_wrong"
   ],
   "note": "C50_sort_partial proves it for every order that does not depend on chance, both splitters, any binary tree of merges, any distribution of the lines; C50_one_result says that plans have one result. The full statement is refuted: --sort random (C50_random_refuted) and --debug (C50_debug_refuted) are annotated but wrong; --help, --version and -o are excluded. What sort does is specified in SpecSem.v. C50_sort_iff is exact: without -o, sort is parallelized soundly for all systems whose order depends on chance only for random keys iff none of --help, --version, --debug is given and no order is random; otherwise C50_sort_wrong gives a system where a plan prints what sort never prints."
  },
  {
   "property": "C51",
   "status": "partial",
   "theorems": [
    "C51_grep_partial",
    "C51_grep_refuted",
    "C51_cut_iff",
    "C51_grep_iff",
    "C51_grep_wrong"
   ],
   "note": "C51_grep_partial proves it for grep without the flags in grep_unsafe, any number of parts and any tree of concatenations. The full statement is refuted for the long forms of -m -A -B -C, for -z and --help (C51_grep_refuted). C51_cut_iff is exact for cut: sound iff none of -z --help --version. What grep and cut do is specified in SpecSem.v. C51_grep_iff is exact for grep without -r, -R, -H: sound for all systems iff grep_safe holds (SpecSem5.v); otherwise C51_grep_wrong gives a system and a text that go wrong."
  },
  {
   "property": "C52",
   "status": "proved",
   "theorems": [
    "C52_names",
    "C52_other_strings",
    "C52_input_xor_output",
    "C52_one_kind"
   ],
   "note": ""
  },
  {
   "property": "C53",
   "status": "proved",
   "theorems": [
    "C53_deduplication",
    "C53_deduplication_facts",
    "C53_foldl"
   ],
   "note": ""
  },
  {
   "property": "C54",
   "status": "partial",
   "theorems": [
    "C54_exact",
    "C54_lists_iff",
    "C54_lists_refuted",
    "C54_names_once",
    "C54_complete",
    "C54_sound",
    "C54_spellings_refuted",
    "C54_dash_refuted",
    "C54_files_iff",
    "C54_files_need_editing",
    "C54_options_are_strings"
   ],
   "note": "refuted: a line announcing flags and options together yields bare strings, then even the word - is read as a flag; exact iff, completeness, soundness and absence of duplicates are proved for all lines of text"
  },
  {
   "property": "C55",
   "status": "partial",
   "theorems": [
    "C55_all",
    "C55_some",
    "C55_streaming_inputs_partial",
    "C55_streaming_inputs_refuted",
    "C55_implicit"
   ],
   "note": "proved for all setters but those of streaming inputs, which are empty: correct on fresh information only (C55_streaming_inputs_partial), refuted otherwise"
  },
  {
   "property": "C56",
   "status": "proved",
   "theorems": [
    "C56_published",
    "C56_report_unique",
    "C56_raises",
    "C56_target_refuted",
    "C56_target_unique"
   ],
   "note": "the report is unique and the help text on the target is refuted (C56_target_refuted); the text of the report is a parameter"
  },
  {
   "property": "C57",
   "status": "proved",
   "theorems": [
    "C57_mapper_spec",
    "C57_mapper_from_text",
    "C57_transformer_defaults",
    "C57_parallelizer",
    "C57_unpack"
   ],
   "note": ""
  },
  {
   "property": "C58",
   "status": "partial",
   "theorems": [
    "C58_tr_iff",
    "C58_tr_wrong",
    "C58_without_squeeze",
    "C58_squeeze_offered",
    "C58_squeeze_refuted"
   ],
   "note": "C58_tr_iff is the exact condition for the concatenation to be right, C58_tr_wrong gives a wrong result whenever it fails, C58_without_squeeze covers all invocations without -s. The full statement is refuted: C58_squeeze_offered and C58_squeeze_refuted (tr -cs A-Za-z '\\\\n')."
  },
  {
   "property": "C59",
   "status": "partial",
   "theorems": [
    "C59_one_partial",
    "C59_one_wrong",
    "C59_one_iff",
    "C59_script_iff",
    "C59_script_wrong",
    "C59_sed_partial",
    "C59_line_number_wrong",
    "C59_quit_wrong",
    "C59_sed_refuted",
    "C59_delete_not_offered",
    "C59_in_place_offered",
    "C59_parts",
    "C59_runs",
    "C59_full_partial",
    "C59_forward_partial",
    "C59_full_refuted"
   ],
   "note": "C59_full_partial and C59_forward_partial prove it for scripts by_itself (SpecSem8.v: s y p P d D h H g G x a i c l r z b t T, blocks, negated addresses; no line numbers, last line, ranges, n N = q Q, and a hold space that is never written, never read, or written first), on all inputs on which the script ends, which is all inputs if branches go forward (C59_runs). C59_parts: such a script ends on the whole iff it ends on the parts. C59_sed_partial is the earlier result with a reader for a smaller language. All without -e -f --in-place --debug --posix -z --help --version. C59_one_iff gives the exact condition for scripts of one line command (s y p P d h H g G z a i l r) at any address, negated or not, for all meanings of regular expressions: all lines, matching lines, 1,$, or a command that makes no difference; C59_one_wrong gives a wrong result for all others. The full statement is refuted: C59_line_number_wrong and C59_quit_wrong for all line numbers and all meanings of regular expressions, C59_sed_refuted and C59_full_refuted for twenty-two command lines. C59_in_place_offered: sed -i is offered the concatenation. C59_delete_not_offered: /x/d is line local but not offered. C59_script_iff: every script that ends on all inputs is treated right for all inputs and cuts iff it is whenever the first line is cut off; C59_script_wrong: otherwise some plan goes wrong. Missing: w e F R W, the flags listed, and a condition on the text of scripts of several commands that is exact."
  },
  {
   "property": "C60",
   "status": "partial",
   "theorems": [
    "C60_never_stops",
    "C60_stops_iff",
    "C60_stops_wrong",
    "C60_unclosed_wrong",
    "C60_xargs_iff",
    "C60_xargs_one",
    "C60_xargs_refuted",
    "C60_xargs_safe",
    "C60_xargs_full_iff",
    "C60_xargs_uses",
    "C60_xargs_inputs_refuted",
    "C60_limited_wrong",
    "C60_slot_iff"
   ],
   "note": "C60_xargs_full_iff is exact for the flags -n -L -I -r -t -x -o --null --delimiter --show-limits --help --version, with quotes and backslashes: sound for every command iff items end at newlines and either -I is given, or -r with -n 1 or -L 1 (or the number is the error 0). C60_xargs_safe gives the inputs: any without null characters if newlines delimit, otherwise those without quoted or escaped newlines, and with -L 1 those without continued lines. C60_xargs_uses lists sound uses, C60_xargs_iff and C60_xargs_one are the earlier results for -n -r -t, C60_xargs_one for a given command. The full statement is refuted (C60_xargs_refuted, C60_xargs_inputs_refuted: xargs echo, -n 2, -n 1 without -r, --null, -L 2, an escaped newline, a blank at the end of a line with -L 1). -E, -a, -P and -p are in C77. C60_stops_iff, C60_stops_wrong and C60_never_stops: if xargs may stop before the end (a command that exits with 255 or is killed, an argument that does not fit), safe uses stay right iff a stop is possible only if no command prints anything. C60_unclosed_wrong: with inputs that may have unclosed quotes no use is right for which quotes matter. C60_limited_wrong: with -s (whose number is an operand, as the data list it as a flag) the concatenation is wrong as soon as anything is printed for some input. C60_slot_iff: with --process-slot-var (likewise listed as a flag) exactly the same uses are safe. Not covered: -s or --process-slot-var followed by further options, which the parser takes for operands."
  },
  {
   "property": "C61",
   "status": "partial",
   "theorems": [
    "C61_one_result",
    "C61_uniq_iff",
    "C61_unique_wrong",
    "C61_uniq_refuted",
    "C61_all_repeated_offered"
   ],
   "note": "C61_uniq_iff is exact: sound for every way to compare lines iff none of -u -z --help --version and no --group other than separate. The full statement is refuted (C61_unique_wrong for every comparison; C61_uniq_refuted for five command lines; C61_all_repeated_offered). The aggregator for -c is a placeholder: C78. Out of scope: words that the defective data file turns into the flag - (C12). What uniq does is specified in SpecSem3.v; the code returns no aggregator of this kind yet (C29)."
  },
  {
   "property": "C62",
   "status": "partial",
   "theorems": [
    "C62_merge_exact",
    "C62_merge_wrong"
   ],
   "note": "refuted: C62_merge_exact gives the result of every plan (right if at most one part leaves something, else one newline too much), C62_merge_wrong a wrong result whenever some character is kept. Concatenation would be right (C58_without_squeeze)."
  },
  {
   "property": "C63",
   "status": "partial",
   "theorems": [
    "C63_result",
    "C63_iff",
    "C63_two_results",
    "C63_empty_part_refuted"
   ],
   "note": "C63_result gives the result of every plan, C63_iff the exact condition: right iff no part is empty or all are. The full statement is refuted (C63_empty_part_refuted, for every system with these commands). What bigram_aux_map and bigram_aux_reduce do is specified in SpecSem4.v after the scripts the names stand for. alt_bigrams_aux: C69."
  },
  {
   "property": "C64",
   "status": "partial",
   "theorems": [
    "C64_append",
    "C64_quoted",
    "C64_succeeds_iff",
    "C64_raises",
    "C64_text_iff",
    "C64_read_back",
    "C64_read_iff",
    "C64_escape_lost",
    "C64_read_back_refuted",
    "C64_shell",
    "C64_shell_iff",
    "C64_dollar_refuted",
    "C64_operator_refuted",
    "C64_substitution_refuted"
   ],
   "note": "C64_text_iff says exactly what is printed, C64_succeeds_iff and C64_raises when printing works; C64_append and C64_quoted follow the structure. Reading back is refuted (C64_read_back_refuted; C64_escape_lost: escapes leave no trace). C64_read_iff: shlex reads words of characters, escaped characters and double quotes back iff no escaped character needs its backslash. C64_shell_iff: a POSIX shell (SpecShellWord.v) reads words that also have parameters back iff they survive: no escape outside quotes; within quotes no escaped double quote or backquote, no dollar that begins a parameter, backslashes only before characters that they do not protect; no operator of a parameter. C64_dollar_refuted and C64_operator_refuted: for every name, an escaped dollar before it becomes a parameter, and every operator is lost. C64_substitution_refuted: command substitutions are printed as the str of their syntax tree, so that a shell would run a command whose name is made of the kind of the tree, whatever the command was."
  },
  {
   "property": "C65",
   "status": "partial",
   "theorems": [
    "C65_exact",
    "C65_one_result",
    "C65_equivalence",
    "C65_copy_iff",
    "C65_equal_stands_for",
    "C65_invocations_iff",
    "C65_class",
    "C65_splitter",
    "C65_copy_refuted"
   ],
   "note": "C65_exact, C65_one_result, C65_equivalence, C65_class, C65_invocations_iff and C65_equal_stands_for are proved for all acyclic heaps. That copies are equal is refuted (C65_copy_refuted: OptionWithIOVar has no __eq__); C65_copy_iff is the exact condition. C65_splitter: the equality of Splitter, which compares the kinds only, agrees with the others between splitters and raises AttributeError for objects without a kind. Not modelled: comparing cyclic objects (the code builds none)."
  },
  {
   "property": "C66",
   "status": "partial",
   "theorems": [
    "C66_iff",
    "C66_config_iff",
    "C66_refuted",
    "C66_options",
    "C66_resources"
   ],
   "note": "The accessors for operands of CommandInvocationWithIOVars test for FileNameOrStdDescriptorWithIOInfo, never for variables: refuted (C66_refuted). C66_iff, C66_config_iff: right exactly if there is nothing to find. C66_options is exact for what the accessor of options finds."
  },
  {
   "property": "C67",
   "status": "partial",
   "theorems": [
    "C67_inputs",
    "C67_properties",
    "C67_make_arg",
    "C67_add_access_refuted"
   ],
   "note": "Inputs, CommandProperties and make_arg_simple proved exactly; that adding an access works is refuted, both functions always raise (C67_add_access_refuted)."
  },
  {
   "property": "C68",
   "status": "proved",
   "theorems": [
    "C68_stopping_iff",
    "C68_concat_offered",
    "C68_concat_iff",
    "C68_concat_wrong",
    "C68_line_by_line"
   ],
   "note": "C68_concat_offered: who is offered the concatenation, with what splitters and mapper; C68_concat_iff: exact for all systems; C68_concat_wrong: otherwise a plan prints what the command never prints; C68_line_by_line: the case of commands that treat lines one by one; C68_stopping_iff: of commands that do so until a line makes them stop. Plans are run as specified in SpecSem.v."
  },
  {
   "property": "C69",
   "status": "partial",
   "theorems": [
    "C69_iff",
    "C69_wrong",
    "C69_pairs_wrong"
   ],
   "note": "C69_iff is the exact condition on the two programs; C69_wrong: no aggregator program helps if the results for the parts do not determine the result; C69_pairs_wrong: refuted for every aggregator program if the command prints pairs of adjacent lines. The programs themselves are not in the repository."
  },
  {
   "property": "C70",
   "status": "partial",
   "theorems": [
    "C70_one_reading",
    "C70_same_iff",
    "C70_after_operand_wrong",
    "C70_dashes_wrong",
    "C70_attached_wrong",
    "C70_misread",
    "C70_refuted"
   ],
   "note": "C70_same_iff: exact, for every line the command understands, with the list of misread words; C70_misread: each of these is really misread; C70_after_operand_wrong, C70_dashes_wrong, C70_attached_wrong: three ways of writing that always go wrong; C70_refuted: diff -u a b. C70_one_reading: the specification is unambiguous. Abbreviated long options and the old numeric forms are left out of the specification."
  },
  {
   "property": "C71",
   "status": "partial",
   "theorems": [
    "C71_announced",
    "C71_sort_iff",
    "C71_tee_iff",
    "C71_mkfifo_iff",
    "C71_rm_iff",
    "C71_mv_iff",
    "C71_grep_iff",
    "C71_awk_iff",
    "C71_nothing_more",
    "C71_sed_stdin",
    "C71_sed_in_place",
    "C71_sort_late",
    "C71_diff_unified",
    "C71_refuted",
    "C71_sed_expression"
   ],
   "note": "On the lines parse reads like the command (C70): C71_announced, nothing is missing for cat, comm, cut, diff, head, sed, seq, tail, tr, uniq, wc and xargs; C71_sort_iff, C71_grep_iff, C71_awk_iff, C71_tee_iff, C71_mkfifo_iff, C71_rm_iff and C71_mv_iff are the exact conditions for the others; C71_nothing_more and C71_sed_stdin: what is announced in vain. On other lines: C71_sed_in_place, C71_sed_expression (a script given with -e is announced as an input file), C71_sort_late and C71_diff_unified. C71_refuted: mv a b. Effects of scripts, programs and commands run by xargs are left out of the specification."
  },
  {
   "property": "C72",
   "status": "partial",
   "theorems": [
    "C72_parsed_iff",
    "C72_parsed_refuted",
    "C72_parsed_partial",
    "C72_io_iff",
    "C72_io_commands",
    "C72_io_newline_refuted",
    "C72_io_section",
    "C72_para_iff",
    "C72_para_refuted",
    "C72_para_generated",
    "C72_report",
    "C72_report_sections",
    "C72_repr",
    "C72_object_lines",
    "C72_list_text",
    "C72_para_lines",
    "C72_io_lines",
    "C72_parsed_lines",
    "C72_para_text",
    "C72_whole_report"
   ],
   "note": "C72_parsed_iff: on one line, texts of parsed invocations are equal iff name, flags and options are equal and the operands are equal when joined by commas; C72_parsed_refuted: so operands cannot be read in general (cat 'a, b' and cat a b); C72_parsed_partial: they can for command lines without newlines if no operand is empty or contains a comma. C72_io_commands and C72_io_section: invocations with input/output information and that section of the report are determined by their texts for all command lines without newlines; C72_io_newline_refuted: not with newlines. C72_para_iff: the texts of parallelizability information are equal iff the parallelizers have the same splitters, mappers and aggregators and the flags are equal; C72_para_refuted: the additional information is not printed; C72_para_generated: nothing is lost for generated information. C72_report: whole reports; C72_report_sections: the report shows command line, parsed invocation and both kinds of information in order under their headings. Characters up to code point 255; elements of transformers other than flags print as any text. C72_repr, C72_object_lines, C72_list_text and C72_para_lines state the texts themselves: strings in lists as CPython prints them (table), objects line by line. C72_parsed_lines, C72_io_lines, C72_para_text and C72_whole_report state every line of the texts of parsed invocations, of those with input/output information, of parallelizability information and of the whole report, by relations in SpecText2.v that hold of exactly these texts."
  },
  {
   "property": "C73",
   "status": "proved",
   "theorems": [
    "C73_numbering_exists",
    "C73_one_stream",
    "C73_lines",
    "C73_input",
    "C73_cut",
    "C73_grep",
    "C73_sort",
    "C73_tr",
    "C73_uniq",
    "C73_xargs",
    "C73_sed",
    "C73_sed_one"
   ],
   "note": "C73_numbering_exists: variables can always be chosen; C73_one_stream and C73_lines: exactly when plans have one stream, for all information and in terms of the command line (SpecEnd.v has the table); C73_input: it is determined by its access. C73_cut, C73_grep, C73_sort, C73_tr, C73_uniq and C73_xargs: C50, C51, C58, C60 and C61 with conditions on the words of the command line only; C73_sed: C59 in the same way, a sufficient condition; C73_sed_one: the exact condition for scripts of one command that concerns single lines. The choice of variables is a relation, since the repository leaves it to its users."
  },
  {
   "property": "C74",
   "status": "partial",
   "theorems": [
    "C74_import_iff",
    "C74_found_iff",
    "C74_one_bad_file",
    "C74_import_added",
    "C74_new",
    "C74_others",
    "C74_none_refuted",
    "C74_order",
    "C74_broken_silent",
    "C74_documented_file_ignored",
    "C74_repository",
    "C74_adding",
    "C74_config_table",
    "C74_config_classes_refuted",
    "C74_config_modules_refuted",
    "C74_data"
   ],
   "note": "C74_import_iff, C74_found_iff: exactly when the package imports and a command gets information; C74_import_added, C74_new, C74_others, C74_adding, C74_order: what a new entry does; C74_repository links the registry with the two functions the other claims are about; C74_data for data files. Refuted parts: C74_none_refuted, C74_one_bad_file, C74_broken_silent, C74_documented_file_ignored, C74_config_classes_refuted, C74_config_modules_refuted; C74_config_table compares the two tables. Modules are a function from names to outcomes of importing them; names that are not identifiers are taken to be syntax errors."
  },
  {
   "property": "C75",
   "status": "proved",
   "theorems": [
    "C75_io",
    "C75_applied",
    "C75_para",
    "C75_order",
    "C75_other_name",
    "C75_para_needed",
    "C75_io_needed",
    "C75_operands_needed"
   ],
   "note": "C75_io, C75_applied, C75_para: equal information for all pairs of invocations that agree on the names in SpecDepends.v; C75_order for permutations, C75_other_name for insertions; C75_io_needed, C75_para_needed, C75_operands_needed: nothing in the tables is superfluous."
  },
  {
   "property": "C76",
   "status": "partial",
   "theorems": [
    "C76_staged_iff",
    "C76_branch_iff",
    "C76_fused_iff",
    "C76_lines",
    "C76_fused_lines",
    "C76_tr_keeps_iff",
    "C76_fused_joined",
    "C76_needed",
    "C76_fused_refuted"
   ],
   "note": "C76_staged_iff: sound stages compose, for pipelines of any length, all plans and cuts. C76_branch_iff: a part that goes through the mappers of all stages is treated as by the sequential pipeline. C76_fused_iff: combining may wait until after the last stage (any sound one) if the stages before it concatenate and keep the ends of lines; C76_lines and C76_fused_lines: cut, grep and sed do; C76_tr_keeps_iff: when tr does, exactly. C76_fused_joined: what running side by side gives in general; C76_needed: a stage that breaks an end of line goes wrong with every next stage that prints one line per line; C76_fused_refuted: tr '\\n' ' ' | cut -c 1. Partial because the unconditional claim is refuted."
  },
  {
   "property": "C77",
   "status": "partial",
   "theorems": [
    "C77_concat_iff",
    "C77_settled",
    "C77_not_wrong",
    "C77_xargs_fine",
    "C77_xargs_iff",
    "C77_xargs_plain",
    "C77_xargs_uses",
    "C77_xargs_order",
    "C77_xargs_refuted"
   ],
   "note": "C77_concat_iff: for every command that is offered the concatenation, all plans give only possible outputs iff possible outputs of two parts make up a possible output of the whole. C77_settled: for every parallelizer, giving exactly the output is this plus independence of chance; C77_not_wrong. C77_xargs_iff: for xargs with -P -p -E -a besides the flags of C60 (orders in which up to k commands end, answers of the user, the string that ends the items, the file of items), exact condition on lines without quoted newlines; C77_xargs_fine gives more inputs, C77_xargs_uses lists uses, C77_xargs_plain derives the specification of C60, C77_xargs_order: with -P 2 outputs are possible ones but not a fixed one. C77_xargs_refuted: -E and -a. Partial because the claim is refuted for those."
  },
  {
   "property": "C78",
   "status": "partial",
   "theorems": [
    "C78_asked",
    "C78_squeeze_again",
    "C78_drop_iff",
    "C78_drop_refuted",
    "C78_count_merge",
    "C78_unique_impossible",
    "C78_count_iff",
    "C78_repeated_impossible",
    "C78_agrees"
   ],
   "note": "C78_asked: only tr -s on newlines and uniq -c are offered such plans. C78_squeeze_again, C78_drop_iff (exact), C78_drop_refuted (newlines translated to something else); C78_count_merge with the function that the comment in the generator describes, C78_count_iff (exact, over all functions), C78_unique_impossible and C78_repeated_impossible. Partial because the named function is not always right. Not specified: -D, --all-repeated and --group with -c (GNU uniq rejects -c with them), and words that the defective data file turns into the flag - (C12)."
  },
  {
   "property": "C79",
   "status": "partial",
   "theorems": [
    "C79_prepared",
    "C79_unchecked",
    "C79_kind",
    "C79_longer_iff",
    "C79_longer_refuted",
    "C79_shorter_iff",
    "C79_sum_iff",
    "C79_offsets",
    "C79_offsets_needed"
   ],
   "note": "Refuted in two points: without the check grep -l, -L and -c fail (C79_unchecked), and -L needs the shorter output (C79_longer_refuted, C79_shorter_iff). Exact conditions for the others. -r, -R and -H are excluded; how grep prints counts, numbers and offsets are hypotheses on the oracle (counts_plainly, numbers_plainly)."
  },
  {
   "property": "C80",
   "status": "proved",
   "theorems": [
    "C80_loads_iff",
    "C80_loads_raises_iff",
    "C80_one_meaning",
    "C80_read_iff",
    "C80_damaged",
    "C80_cut_short",
    "C80_shipped",
    "C80_shipped_read",
    "C80_shipped_cut",
    "C80_dumps_loads",
    "C80_dumps_ascii",
    "C80_scraper"
   ],
   "note": "json.loads against the grammar of JSON (iff), json.dumps, the shipped texts, cut files, and the way from a man page to the data of the parser."
  },
  {
   "property": "C81",
   "status": "partial",
   "theorems": [
    "C81_readable",
    "C81_one_class",
    "C81_documented_partial",
    "C81_documented_refuted",
    "C81_file_names",
    "C81_lost_iff",
    "C81_gained_iff",
    "C81_agree_iff",
    "C81_cut_judged"
   ],
   "note": "C81_readable, C81_one_class, C81_file_names: the records are well-formed. C81_documented_partial and C81_documented_refuted: the classes of the README but for two spellings. C81_lost_iff, C81_gained_iff and C81_agree_iff: agreement is refuted, exact lists of the differences for all invocations. C81_cut_judged: what the records say about cut is right exactly if a newline is the delimiter for fields when and only when -z, --help or --version is given. The interpreter of the records is not in the repository; SpecOld.v follows the README. For inputs and outputs see C82."
  },
  {
   "property": "C82",
   "status": "partial",
   "theorems": [
    "C82_inputs_iff",
    "C82_outputs_iff",
    "C82_determined",
    "C82_inputs_refuted"
   ],
   "note": "C82_determined: one list of inputs and of outputs for every invocation but for recursive grep without -c. C82_inputs_iff and C82_outputs_iff: agreement with the generators is refuted (C82_inputs_refuted), with the exact condition for every invocation; outputs are compared up to order. Files that the records list as configuration are not streams and are not compared."
  },
  {
   "property": "C83",
   "status": "partial",
   "theorems": [
    "C83_accepted_iff",
    "C83_help_iff",
    "C83_status",
    "C83_tool",
    "C83_joined",
    "C83_apart_iff",
    "C83_apart_usual",
    "C83_any_string_refuted"
   ],
   "note": "C83_accepted_iff, C83_help_iff, C83_status and C83_tool: exactly which lists of words are accepted, what they say, when the help is printed and that nothing happens otherwise. C83_joined: every string but two dashes can be handed over in the word of the option. C83_apart_iff, C83_apart_usual: in a word of its own exactly what does not look like an option; C83_any_string_refuted. The argument parser follows argparse of CPython 3.8 to 3.11; its texts are not modelled, and later versions differ for words with two dashes."
  },
  {
   "property": "C84",
   "status": "partial",
   "theorems": [
    "C84_exact",
    "C84_one_text",
    "C84_unchanged",
    "C84_copy_iff",
    "C84_alike",
    "C84_invocations_iff",
    "C84_hidden",
    "C84_equal_refuted",
    "C84_options_refuted"
   ],
   "note": "Refuted for equal invocations whose access maps have their entries in another order (C84_equal_refuted) and for options that name variables, which print their place only (C84_options_refuted); proved: one text per object, exactly specified; copies print the same text exactly if no such object is reached; texts of invocations without such options are equal exactly if class, kind, all parts and the entries of the access map in order are."
  },
  {
   "property": "C85",
   "status": "proved",
   "theorems": [
    "C85_built",
    "C85_determined",
    "C85_registered",
    "C85_concat_iff",
    "C85_commutative_iff",
    "C85_commutative_wrong",
    "C85_adjacent",
    "C85_individual_files_refuted"
   ],
   "note": "What every generator written with the helpers builds, for registered commands too; exact conditions for the concatenating helpers and for declared commutativity, for all programs. The part that all plans can be run is refuted (C85_adjacent, C85_individual_files_refuted)."
  },
  {
   "property": "C86",
   "status": "proved",
   "theorems": [
    "C86_raises",
    "C86_last_word",
    "C86_names_iff",
    "C86_order",
    "C86_registered",
    "C86_expressible_iff",
    "C86_idle_refuted",
    "C86_shipped"
   ],
   "note": "C86_raises: when a sequence of calls raises; C86_last_word: what it gives otherwise; C86_names_iff: the names of all calls are true exactly if they are consistent; C86_order: then their order does not matter; C86_idle_refuted: the functions for streaming inputs have no effect after others; C86_expressible_iff: which classes of operands can be declared; C86_shipped: the generators of the repository are consistent; C86_registered: from a newly registered class to the invocation with its files and streams."
  },
  {
   "property": "C87",
   "status": "proved",
   "theorems": [
    "C87_specification",
    "C87_specification_with_aux",
    "C87_recognised",
    "C87_untyped_refuted",
    "C87_annotated",
    "C87_invocation_refuted",
    "C87_one_kind",
    "C87_splitters",
    "C87_round_robin"
   ],
   "note": "C87_untyped_refuted: constructors do not check kinds; C87_invocation_refuted: the same cat held as an invocation is not recognised."
  },
  {
   "property": "C88",
   "status": "proved",
   "theorems": [
    "C88_operand_iff",
    "C88_stdin_iff",
    "C88_grep_H_iff",
    "C88_grep_H_refuted",
    "C88_grep_right",
    "C88_blind",
    "C88_any_plan"
   ],
   "note": "For every command that is offered the concatenation; grep with the flags of grep_plain_flags. The hope that grep -H on a file is right is refuted with the exact condition. C88_blind and C88_any_plan are about every parallelizer whose mapper needs no further files."
  },
  {
   "property": "C89",
   "status": "partial",
   "theorems": [
    "C89_custom_iff",
    "C89_no_command_line",
    "C89_wc_sum_iff",
    "C89_wc_merge",
    "C89_cat_iff",
    "C89_cat_old_refuted",
    "C89_uniq_no_command_line",
    "C89_wc_file_refuted",
    "C89_wc_file_iff"
   ],
   "note": "For any command and command line the exact condition is proved. The claims of the guide and of the earlier records hold exactly under the stated conditions: wc can be summed up exactly without -L (with -L the larger number is right), cat may be concatenated exactly without -n -b -s; the records call cat -b and cat -s stateless, which is refuted. wc on one file prints its name: C89_wc_file_refuted and C89_wc_file_iff. wc with several operands, --help, --version and --files0-from are not covered."
  },
  {
   "property": "C90",
   "status": "proved",
   "theorems": [
    "C90_stateless_iff",
    "C90_offered_iff",
    "C90_empty",
    "C90_anywhere_iff",
    "C90_tac_refuted",
    "C90_tac_backwards",
    "C90_rev",
    "C90_tr_record",
    "C90_tr_squeeze_iff"
   ],
   "note": "Exact conditions for any command: C90_stateless_iff (line by line), C90_anywhere_iff (character by character), so the README's claim that cuts need no caution is refuted for rev (C90_rev). The record for tac is refuted (C90_tac_refuted), C90_tac_backwards shows what is right instead. tac and rev are covered without flags, reading standard input."
  },
  {
   "property": "C91",
   "status": "partial",
   "theorems": [
    "C91_same",
    "C91_question",
    "C91_other_names_refuted"
   ],
   "note": "Full claim refuted: grep --regexp --after-context --before-context --context --max-count and tr -C are reported under names no generator asks for; exact for these names, all other spellings proved."
  },
  {
   "property": "C92",
   "status": "partial",
   "theorems": [
    "C92_join_one",
    "C92_join",
    "C92_join_second_refuted",
    "C92_join_alone_refuted",
    "C92_plans_iff",
    "C92_rev_refuted",
    "C92_tr",
    "C92_tr_s_iff",
    "C92_uniq",
    "C92_uniq_d_refuted",
    "C92_uniq_c",
    "C92_wc_iff",
    "C92_sort",
    "C92_sort_h_refuted",
    "C92_nl",
    "C92_nl_refuted"
   ],
   "note": "Refuted for rev, sort -h, uniq -d, wc -L, tr -s in general and nl with delimiters of sections, with exact conditions for tr -s and wc; the others are right. join is right for the parts of the first of two sorted files (C92_join), wrong for parts of the second one and with -a 2 or -v 2."
  },
  {
   "property": "C93",
   "status": "proved",
   "theorems": [
    "C93_inferred",
    "C93_one_result",
    "C93_again",
    "C93_kinds",
    "C93_independent",
    "C93_repeated",
    "C93_list_shared"
   ],
   "note": "the loop over the list that it appends to, deepcopy and the new splitter on the heap of C48; C93_list_shared: the list returned is the stored one, so that its holder can empty it"
  },
  {
   "property": "C94",
   "status": "proved",
   "theorems": [
    "C94_applied",
    "C94_shared",
    "C94_elements",
    "C94_client",
    "C94_two_calls",
    "C94_constructed",
    "C94_operands_independent_refuted"
   ],
   "note": "C94_applied: the call on objects ends as the model of values says, and leaves all objects unchanged; C94_shared: which older objects are part of the result, exactly; C94_elements: element by element; C94_client, C94_two_calls: later programs and second calls; C94_constructed and C94_operands_independent_refuted: the constructor gives all operands one access, so operands are not independent."
  },
  {
   "property": "C95",
   "status": "partial",
   "theorems": [
    "C95_generated",
    "C95_access",
    "C95_shared_iff",
    "C95_client_iff",
    "C95_old_objects",
    "C95_two_generators",
    "C95_independent_refuted"
   ],
   "note": "The independence of operands is refuted for every sequence of calls, with the exact condition; the rest is proved in full. The list of typers of the flags and options is given here and made in C96."
  },
  {
   "property": "C96",
   "status": "proved",
   "theorems": [
    "C96_typers",
    "C96_generated",
    "C96_elements",
    "C96_shared_iff",
    "C96_not_with_operands",
    "C96_client_iff",
    "C96_old_objects",
    "C96_two_generators"
   ],
   "note": "For generators that make calls of the helpers of C86, from the constructor to get_cmd_inv_with_io. The dictionary from names to typers, which is dropped in the constructor, is no object of the heap."
  },
  {
   "property": "C97",
   "status": "proved",
   "theorems": [
    "C97_info",
    "C97_annotated",
    "C97_shared_iff",
    "C97_client_iff",
    "C97_options",
    "C97_old_objects",
    "C97_two"
   ],
   "note": "Every generate_info method of the repository is modelled as a program that calls the helpers on objects (HeapGenerators.v); it does what the model on values (IOGen.v) does. Which operands share an access is then read off the values: exactly those with equal accesses, since no method gives one kind in two calls (a check of the finite table of methods)."
  },
  {
   "property": "C98",
   "status": "proved",
   "theorems": [
    "C98_made",
    "C98_independent",
    "C98_inferred",
    "C98_two",
    "C98_shipped"
   ],
   "note": "Calls of append_to_parallelizer_list with a parallelizer that a method makes itself are left out; C98_shipped names the shipped generators that make none. C99 treats uniq and grep."
  },
  {
   "property": "C99",
   "status": "proved",
   "theorems": [
    "C99_grep",
    "C99_uniq",
    "C99_shared_iff",
    "C99_independent_refuted"
   ],
   "note": "The flags are tested on the value of the invocation."
  }
 ]
}