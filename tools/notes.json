{
 "C01": [
  "proved",
  "also proves that the tokeniser decides an independent grammar of shell words"
 ],
 "C02": [
  "proved",
  "iff, for every data directory"
 ],
 "C03": [
  "proved",
  "iff with a declarative segmentation, hence also deterministic and total"
 ],
 "C04": [
  "proved",
  ""
 ],
 "C05": [
  "proved",
  "for data with unambiguous spellings; all shipped files but uniq.json have unambiguous flags, all have unambiguous options"
 ],
 "C06": [
  "partial",
  "refuted as stated (tr -Cd vs tr -C -d); holds when the letters are first spellings; the exact difference is C06_bundle_general"
 ],
 "C07": [
  "proved",
  ""
 ],
 "C08": [
  "proved",
  ""
 ],
 "C09": [
  "partial",
  "refuted as stated (rm -fR d); exact condition in C09_reparse_iff"
 ],
 "C10": [
  "proved",
  ""
 ],
 "C11": [
  "partial",
  "refuted: the README claim is false for every option, the word always becomes the first operand (C11_equals_is_operand)"
 ],
 "C12": [
  "partial",
  "refuted for uniq (string entries in the flag list) and mv --backup; proved for all other shipped files"
 ],
 "C13": [
  "proved",
  "also what happens when the information is applied to another invocation (only its first operands are kept)"
 ],
 "C14": [
  "proved",
  ""
 ],
 "C15": [
  "proved",
  "shipped data; C15_never_fails for any classifiable data"
 ],
 "C16": [
  "proved",
  "iff for every data directory; parsed invocations of shipped commands never fail on options"
 ],
 "C17": [
  "proved",
  ""
 ],
 "C18": [
  "proved",
  "hand-made invocations with container or exclusion operands are excluded from the coverage claim, as stated"
 ],
 "C19": [
  "proved",
  "iff: full characterisation of the applied invocation"
 ],
 "C20": [
  "proved",
  "iff: full characterisation of the applied invocation"
 ],
 "C21": [
  "proved",
  "iff: full characterisation of the applied invocation"
 ],
 "C22": [
  "proved",
  "iff: full characterisation of the applied invocation"
 ],
 "C23": [
  "proved",
  "iff: full characterisation of the applied invocation"
 ],
 "C24": [
  "proved",
  "iff: full characterisation of the applied invocation"
 ],
 "C25": [
  "proved",
  "iff with an independent table, for every data directory"
 ],
 "C26": [
  "proved",
  ""
 ],
 "C27": [
  "proved",
  "including termination of the loop that appends to the list it runs over"
 ],
 "C28": [
  "partial",
  "refuted for sort (every call adds parallelizers, since the loop appends to the stored list); exact condition in C28_same_answer_iff, exact answers in C28_every_call_adds"
 ],
 "C29": [
  "proved",
  "for specs that respect the declared Literal types; C29_obtainable_refuted: some parts marked as implemented always raise"
 ],
 "C30": [
  "proved",
  "the comment of the code about duplicates is refuted separately"
 ],
 "C31": [
  "proved",
  "both the transformer and the aggregator actually obtained"
 ],
 "C32": [
  "partial",
  "refuted: grep with -m/-A/-B/-C always gets concatenation (unless -q); exact condition in C32_grep_iff"
 ],
 "C33": [
  "partial",
  "refuted (tr -d '\\n'; tr -cs A-Za-z '\\n'); exact condition in C33_concat_iff"
 ],
 "C34": [
  "proved",
  "inputs, outputs and both; C34_skeleton says that the skeleton, the variables and the accesses determine the invocation"
 ],
 "C35": [
  "proved",
  "the three outcomes are characterised exactly, for inputs and outputs"
 ],
 "C36": [
  "partial",
  "refuted; C36_iff gives the exact condition on the new variables"
 ],
 "C37": [
  "proved",
  "including KeyError for a variable without access"
 ],
 "C38": [
  "partial",
  "refuted for OptionWithIOVar, which is never looked into (C38_options_ignored); holds for OptionWithIO"
 ],
 "C39": [
  "proved",
  "including the exact condition for ValueError"
 ],
 "C40": [
  "proved",
  "including the rejected calls"
 ],
 "C41": [
  "proved",
  "all finite histories of the nine calls; also no access is left over"
 ],
 "C42": [
  "partial",
  "refuted for too few variables (C42_usable_refuted). With fresh variables the outcome is exact: with too many the invocation is the substituted one and consistent (C42_too_many_partial); with too few, C42_too_few says which fields have got new names and which accesses have moved, and C42_too_few_iff that the invocation is still consistent iff the variables ran out between two of the four fields. The skeleton is kept in all cases (C42_skeleton_partial)."
 ],
 "C43": [
  "proved",
  "including the exact condition for success"
 ],
 "C44": [
  "proved",
  "including the exact condition for success; accesses of the former implicit input and output are not dropped (C44_leftovers_refuted)"
 ],
 "C45": [
  "proved",
  "any number of inputs"
 ],
 "C46": [
  "partial",
  "proved if the original has an implicit output; otherwise the given output is ignored (refuted, e.g. sort -o)"
 ],
 "C47": [
  "proved",
  "with and without auxiliary variables; C47_unimplemented_refuted: with auxiliary variables is_implemented and the kind are not checked"
 ],
 "C52": [
  "proved",
  ""
 ],
 "C53": [
  "proved",
  ""
 ],
 "C55": [
  "partial",
  "proved for all setters but those of streaming inputs, which are empty: correct on fresh information only (C55_streaming_inputs_partial), refuted otherwise"
 ],
 "C49": [
  "partial",
  "refuted: an existing readable and writable file is overwritten and an absent target is never created; proved: nothing but that target ever changes"
 ],
 "C56": [
  "proved",
  "the report is unique and the help text on the target is refuted (C56_target_refuted); the text of the report is a parameter"
 ],
 "C57": [
  "proved",
  ""
 ],
 "C54": [
  "partial",
  "refuted: a line announcing flags and options together yields bare strings, then even the word - is read as a flag; exact iff, completeness, soundness and absence of duplicates are proved for all lines of text"
 ],
 "C48": [
  "proved",
  "Heap model with references and deepcopy. The outcome equals the model of values (C43-C47) for transformers that add no OptionWithIOVar; unchangedness (C48_any_arguments) has no such condition. Later changes are those of an arbitrary program that starts from the results (C48_result_used) or from older objects (C48_original_used)."
 ],
 "C50": [
  "partial",
  "C50_sort_partial proves it for every order that does not depend on chance, both splitters, any binary tree of merges, any distribution of the lines; C50_one_result says that plans have one result. The full statement is refuted: --sort random (C50_random_refuted) and --debug (C50_debug_refuted) are annotated but wrong; --help, --version and -o are excluded. What sort does is specified in SpecSem.v. C50_sort_iff is exact: without -o, sort is parallelized soundly for all systems whose order depends on chance only for random keys iff none of --help, --version, --debug is given and no order is random; otherwise C50_sort_wrong gives a system where a plan prints what sort never prints."
 ],
 "C51": [
  "partial",
  "C51_grep_partial proves it for grep without the flags in grep_unsafe, any number of parts and any tree of concatenations. The full statement is refuted for the long forms of -m -A -B -C, for -z and --help (C51_grep_refuted). C51_cut_iff is exact for cut: sound iff none of -z --help --version. What grep and cut do is specified in SpecSem.v. C51_grep_iff is exact for grep without -r, -R, -H: sound for all systems iff grep_safe holds (SpecSem5.v); otherwise C51_grep_wrong gives a system and a text that go wrong."
 ],
 "C58": [
  "partial",
  "C58_tr_iff is the exact condition for the concatenation to be right, C58_tr_wrong gives a wrong result whenever it fails, C58_without_squeeze covers all invocations without -s. The full statement is refuted: C58_squeeze_offered and C58_squeeze_refuted (tr -cs A-Za-z '\\\\n')."
 ],
 "C59": [
  "partial",
  "C59_full_partial and C59_forward_partial prove it for scripts by_itself (SpecSem8.v: s y p P d D h H g G x a i c l r z b t T, blocks, negated addresses; no line numbers, last line, ranges, n N = q Q, and a hold space that is never written, never read, or written first), on all inputs on which the script ends, which is all inputs if branches go forward (C59_runs). C59_parts: such a script ends on the whole iff it ends on the parts. C59_sed_partial is the earlier result with a reader for a smaller language. All without -e -f --in-place --debug --posix -z --help --version. C59_one_iff gives the exact condition for scripts of one line command (s y p P d h H g G z a i l r) at any address, negated or not, for all meanings of regular expressions: all lines, matching lines, 1,$, or a command that makes no difference; C59_one_wrong gives a wrong result for all others. The full statement is refuted: C59_line_number_wrong and C59_quit_wrong for all line numbers and all meanings of regular expressions, C59_sed_refuted and C59_full_refuted for twenty-two command lines. C59_in_place_offered: sed -i is offered the concatenation. C59_delete_not_offered: /x/d is line local but not offered. C59_script_iff: every script that ends on all inputs is treated right for all inputs and cuts iff it is whenever the first line is cut off; C59_script_wrong: otherwise some plan goes wrong. Missing: w e F R W, the flags listed, and a condition on the text of scripts of several commands that is exact."
 ],
 "C60": [
  "partial",
  "C60_xargs_full_iff is exact for the flags -n -L -I -r -t -x -o --null --delimiter --show-limits --help --version, with quotes and backslashes: sound for every command iff items end at newlines and either -I is given, or -r with -n 1 or -L 1 (or the number is the error 0). C60_xargs_safe gives the inputs: any without null characters if newlines delimit, otherwise those without quoted or escaped newlines, and with -L 1 those without continued lines. C60_xargs_uses lists sound uses, C60_xargs_iff and C60_xargs_one are the earlier results for -n -r -t, C60_xargs_one for a given command. The full statement is refuted (C60_xargs_refuted, C60_xargs_inputs_refuted: xargs echo, -n 2, -n 1 without -r, --null, -L 2, an escaped newline, a blank at the end of a line with -L 1). -E, -a, -P and -p are in C77. C60_stops_iff, C60_stops_wrong and C60_never_stops: if xargs may stop before the end (a command that exits with 255 or is killed, an argument that does not fit), safe uses stay right iff a stop is possible only if no command prints anything. C60_unclosed_wrong: with inputs that may have unclosed quotes no use is right for which quotes matter. C60_limited_wrong: with -s (whose number is an operand, as the data list it as a flag) the concatenation is wrong as soon as anything is printed for some input. C60_slot_iff: with --process-slot-var (likewise listed as a flag) exactly the same uses are safe. Not covered: -s or --process-slot-var followed by further options, which the parser takes for operands."
 ],
 "C61": [
  "partial",
  "C61_uniq_iff is exact: sound for every way to compare lines iff none of -u -z --help --version and no --group other than separate. The full statement is refuted (C61_unique_wrong for every comparison; C61_uniq_refuted for five command lines; C61_all_repeated_offered). The aggregator for -c is a placeholder: C78. Out of scope: words that the defective data file turns into the flag - (C12). What uniq does is specified in SpecSem3.v; the code returns no aggregator of this kind yet (C29)."
 ],
 "C62": [
  "partial",
  "refuted: C62_merge_exact gives the result of every plan (right if at most one part leaves something, else one newline too much), C62_merge_wrong a wrong result whenever some character is kept. Concatenation would be right (C58_without_squeeze)."
 ],
 "C63": [
  "partial",
  "C63_result gives the result of every plan, C63_iff the exact condition: right iff no part is empty or all are. The full statement is refuted (C63_empty_part_refuted, for every system with these commands). What bigram_aux_map and bigram_aux_reduce do is specified in SpecSem4.v after the scripts the names stand for. alt_bigrams_aux: C69."
 ],
 "C64": [
  "partial",
  "C64_text_iff says exactly what is printed, C64_succeeds_iff and C64_raises when printing works; C64_append and C64_quoted follow the structure. Reading back is refuted (C64_read_back_refuted; C64_escape_lost: escapes leave no trace). C64_read_iff: shlex reads words of characters, escaped characters and double quotes back iff no escaped character needs its backslash. C64_shell_iff: a POSIX shell (SpecShellWord.v) reads words that also have parameters back iff they survive: no escape outside quotes; within quotes no escaped double quote or backquote, no dollar that begins a parameter, backslashes only before characters that they do not protect; no operator of a parameter. C64_dollar_refuted and C64_operator_refuted: for every name, an escaped dollar before it becomes a parameter, and every operator is lost. C64_substitution_refuted: command substitutions are printed as the str of their syntax tree, so that a shell would run a command whose name is made of the kind of the tree, whatever the command was."
 ],
 "C65": [
  "partial",
  "C65_exact, C65_one_result, C65_equivalence, C65_class, C65_invocations_iff and C65_equal_stands_for are proved for all acyclic heaps. That copies are equal is refuted (C65_copy_refuted: OptionWithIOVar has no __eq__); C65_copy_iff is the exact condition. C65_splitter: the equality of Splitter, which compares the kinds only, agrees with the others between splitters and raises AttributeError for objects without a kind. Not modelled: comparing cyclic objects (the code builds none)."
 ],
 "C66": [
  "partial",
  "The accessors for operands of CommandInvocationWithIOVars test for FileNameOrStdDescriptorWithIOInfo, never for variables: refuted (C66_refuted). C66_iff, C66_config_iff: right exactly if there is nothing to find. C66_options is exact for what the accessor of options finds."
 ],
 "C67": [
  "partial",
  "Inputs, CommandProperties and make_arg_simple proved exactly; that adding an access works is refuted, both functions always raise (C67_add_access_refuted)."
 ],
 "C68": [
  "proved",
  "C68_concat_offered: who is offered the concatenation, with what splitters and mapper; C68_concat_iff: exact for all systems; C68_concat_wrong: otherwise a plan prints what the command never prints; C68_line_by_line: the case of commands that treat lines one by one; C68_stopping_iff: of commands that do so until a line makes them stop. Plans are run as specified in SpecSem.v."
 ],
 "C69": [
  "partial",
  "C69_iff is the exact condition on the two programs; C69_wrong: no aggregator program helps if the results for the parts do not determine the result; C69_pairs_wrong: refuted for every aggregator program if the command prints pairs of adjacent lines. The programs themselves are not in the repository."
 ],
 "C70": [
  "partial",
  "C70_same_iff: exact, for every line the command understands, with the list of misread words; C70_misread: each of these is really misread; C70_after_operand_wrong, C70_dashes_wrong, C70_attached_wrong: three ways of writing that always go wrong; C70_refuted: diff -u a b. C70_one_reading: the specification is unambiguous. Abbreviated long options and the old numeric forms are left out of the specification."
 ],
 "C71": [
  "partial",
  "On the lines parse reads like the command (C70): C71_announced, nothing is missing for cat, comm, cut, diff, head, sed, seq, tail, tr, uniq, wc and xargs; C71_sort_iff, C71_grep_iff, C71_awk_iff, C71_tee_iff, C71_mkfifo_iff, C71_rm_iff and C71_mv_iff are the exact conditions for the others; C71_nothing_more and C71_sed_stdin: what is announced in vain. On other lines: C71_sed_in_place, C71_sed_expression (a script given with -e is announced as an input file), C71_sort_late and C71_diff_unified. C71_refuted: mv a b. Effects of scripts, programs and commands run by xargs are left out of the specification."
 ],
 "C72": [
  "partial",
  "C72_parsed_iff: on one line, texts of parsed invocations are equal iff name, flags and options are equal and the operands are equal when joined by commas; C72_parsed_refuted: so operands cannot be read in general (cat 'a, b' and cat a b); C72_parsed_partial: they can for command lines without newlines if no operand is empty or contains a comma. C72_io_commands and C72_io_section: invocations with input/output information and that section of the report are determined by their texts for all command lines without newlines; C72_io_newline_refuted: not with newlines. C72_para_iff: the texts of parallelizability information are equal iff the parallelizers have the same splitters, mappers and aggregators and the flags are equal; C72_para_refuted: the additional information is not printed; C72_para_generated: nothing is lost for generated information. C72_report: whole reports; C72_report_sections: the report shows command line, parsed invocation and both kinds of information in order under their headings. Characters up to code point 255; elements of transformers other than flags print as any text. C72_repr, C72_object_lines, C72_list_text and C72_para_lines state the texts themselves: strings in lists as CPython prints them (table), objects line by line. C72_parsed_lines, C72_io_lines, C72_para_text and C72_whole_report state every line of the texts of parsed invocations, of those with input/output information, of parallelizability information and of the whole report, by relations in SpecText2.v that hold of exactly these texts."
 ],
 "C73": [
  "proved",
  "C73_numbering_exists: variables can always be chosen; C73_one_stream and C73_lines: exactly when plans have one stream, for all information and in terms of the command line (SpecEnd.v has the table); C73_input: it is determined by its access. C73_cut, C73_grep, C73_sort, C73_tr, C73_uniq and C73_xargs: C50, C51, C58, C60 and C61 with conditions on the words of the command line only; C73_sed: C59 in the same way, a sufficient condition; C73_sed_one: the exact condition for scripts of one command that concerns single lines. The choice of variables is a relation, since the repository leaves it to its users."
 ],
 "C74": [
  "partial",
  "C74_import_iff, C74_found_iff: exactly when the package imports and a command gets information; C74_import_added, C74_new, C74_others, C74_adding, C74_order: what a new entry does; C74_repository links the registry with the two functions the other claims are about; C74_data for data files. Refuted parts: C74_none_refuted, C74_one_bad_file, C74_broken_silent, C74_documented_file_ignored, C74_config_classes_refuted, C74_config_modules_refuted; C74_config_table compares the two tables. Modules are a function from names to outcomes of importing them; names that are not identifiers are taken to be syntax errors."
 ],
 "C75": [
  "proved",
  "C75_io, C75_applied, C75_para: equal information for all pairs of invocations that agree on the names in SpecDepends.v; C75_order for permutations, C75_other_name for insertions; C75_io_needed, C75_para_needed, C75_operands_needed: nothing in the tables is superfluous."
 ],
 "C76": [
  "partial",
  "C76_staged_iff: sound stages compose, for pipelines of any length, all plans and cuts. C76_branch_iff: a part that goes through the mappers of all stages is treated as by the sequential pipeline. C76_fused_iff: combining may wait until after the last stage (any sound one) if the stages before it concatenate and keep the ends of lines; C76_lines and C76_fused_lines: cut, grep and sed do; C76_tr_keeps_iff: when tr does, exactly. C76_fused_joined: what running side by side gives in general; C76_needed: a stage that breaks an end of line goes wrong with every next stage that prints one line per line; C76_fused_refuted: tr '\\n' ' ' | cut -c 1. Partial because the unconditional claim is refuted."
 ],
 "C77": [
  "partial",
  "C77_concat_iff: for every command that is offered the concatenation, all plans give only possible outputs iff possible outputs of two parts make up a possible output of the whole. C77_settled: for every parallelizer, giving exactly the output is this plus independence of chance; C77_not_wrong. C77_xargs_iff: for xargs with -P -p -E -a besides the flags of C60 (orders in which up to k commands end, answers of the user, the string that ends the items, the file of items), exact condition on lines without quoted newlines; C77_xargs_fine gives more inputs, C77_xargs_uses lists uses, C77_xargs_plain derives the specification of C60, C77_xargs_order: with -P 2 outputs are possible ones but not a fixed one. C77_xargs_refuted: -E and -a. Partial because the claim is refuted for those."
 ],
 "C78": [
  "partial",
  "C78_asked: only tr -s on newlines and uniq -c are offered such plans. C78_squeeze_again, C78_drop_iff (exact), C78_drop_refuted (newlines translated to something else); C78_count_merge with the function that the comment in the generator describes, C78_count_iff (exact, over all functions), C78_unique_impossible and C78_repeated_impossible. Partial because the named function is not always right. Not specified: -D, --all-repeated and --group with -c (GNU uniq rejects -c with them), and words that the defective data file turns into the flag - (C12)."
 ],
 "C79": [
  "partial",
  "Refuted in two points: without the check grep -l, -L and -c fail (C79_unchecked), and -L needs the shorter output (C79_longer_refuted, C79_shorter_iff). Exact conditions for the others. -r, -R and -H are excluded; how grep prints counts, numbers and offsets are hypotheses on the oracle (counts_plainly, numbers_plainly)."
 ],
 "C80": [
  "proved",
  "json.loads against the grammar of JSON (iff), json.dumps, the shipped texts, cut files, and the way from a man page to the data of the parser."
 ],
 "C81": [
  "partial",
  "C81_readable, C81_one_class, C81_file_names: the records are well-formed. C81_documented_partial and C81_documented_refuted: the classes of the README but for two spellings. C81_lost_iff, C81_gained_iff and C81_agree_iff: agreement is refuted, exact lists of the differences for all invocations. C81_cut_judged: what the records say about cut is right exactly if a newline is the delimiter for fields when and only when -z, --help or --version is given. The interpreter of the records is not in the repository; SpecOld.v follows the README. For inputs and outputs see C82."
 ],
 "C82": [
  "partial",
  "C82_determined: one list of inputs and of outputs for every invocation but for recursive grep without -c. C82_inputs_iff and C82_outputs_iff: agreement with the generators is refuted (C82_inputs_refuted), with the exact condition for every invocation; outputs are compared up to order. Files that the records list as configuration are not streams and are not compared."
 ],
 "C83": [
  "partial",
  "C83_accepted_iff, C83_help_iff, C83_status and C83_tool: exactly which lists of words are accepted, what they say, when the help is printed and that nothing happens otherwise. C83_joined: every string but two dashes can be handed over in the word of the option. C83_apart_iff, C83_apart_usual: in a word of its own exactly what does not look like an option; C83_any_string_refuted. The argument parser follows argparse of CPython 3.8 to 3.11; its texts are not modelled, and later versions differ for words with two dashes."
 ],
 "C84": [
  "partial",
  "Refuted for equal invocations whose access maps have their entries in another order (C84_equal_refuted) and for options that name variables, which print their place only (C84_options_refuted); proved: one text per object, exactly specified; copies print the same text exactly if no such object is reached; texts of invocations without such options are equal exactly if class, kind, all parts and the entries of the access map in order are."
 ],
 "C85": [
  "proved",
  "What every generator written with the helpers builds, for registered commands too; exact conditions for the concatenating helpers and for declared commutativity, for all programs. The part that all plans can be run is refuted (C85_adjacent, C85_individual_files_refuted)."
 ],
 "C86": [
  "proved",
  "C86_raises: when a sequence of calls raises; C86_last_word: what it gives otherwise; C86_names_iff: the names of all calls are true exactly if they are consistent; C86_order: then their order does not matter; C86_idle_refuted: the functions for streaming inputs have no effect after others; C86_expressible_iff: which classes of operands can be declared; C86_shipped: the generators of the repository are consistent; C86_registered: from a newly registered class to the invocation with its files and streams."
 ],
 "C87": [
  "proved",
  "C87_untyped_refuted: constructors do not check kinds; C87_invocation_refuted: the same cat held as an invocation is not recognised."
 ],
 "C88": [
  "proved",
  "For every command that is offered the concatenation; grep with the flags of grep_plain_flags. The hope that grep -H on a file is right is refuted with the exact condition. C88_blind and C88_any_plan are about every parallelizer whose mapper needs no further files."
 ],
 "C89": [
  "partial",
  "For any command and command line the exact condition is proved. The claims of the guide and of the earlier records hold exactly under the stated conditions: wc can be summed up exactly without -L (with -L the larger number is right), cat may be concatenated exactly without -n -b -s; the records call cat -b and cat -s stateless, which is refuted. wc on one file prints its name: C89_wc_file_refuted and C89_wc_file_iff. wc with several operands, --help, --version and --files0-from are not covered."
 ],
 "C90": [
  "proved",
  "Exact conditions for any command: C90_stateless_iff (line by line), C90_anywhere_iff (character by character), so the README's claim that cuts need no caution is refuted for rev (C90_rev). The record for tac is refuted (C90_tac_refuted), C90_tac_backwards shows what is right instead. tac and rev are covered without flags, reading standard input."
 ],
 "C91": [
  "partial",
  "Full claim refuted: grep --regexp --after-context --before-context --context --max-count and tr -C are reported under names no generator asks for; exact for these names, all other spellings proved."
 ],
 "C92": [
  "partial",
  "Refuted for rev, sort -h, uniq -d, wc -L, tr -s in general and nl with delimiters of sections, with exact conditions for tr -s and wc; the others are right. join is right for the parts of the first of two sorted files (C92_join), wrong for parts of the second one and with -a 2 or -v 2."
 ],
 "C93": [
  "proved",
  "the loop over the list that it appends to, deepcopy and the new splitter on the heap of C48; C93_list_shared: the list returned is the stored one, so that its holder can empty it"
 ],
 "C94": [
  "proved",
  "C94_applied: the call on objects ends as the model of values says, and leaves all objects unchanged; C94_shared: which older objects are part of the result, exactly; C94_elements: element by element; C94_client, C94_two_calls: later programs and second calls; C94_constructed and C94_operands_independent_refuted: the constructor gives all operands one access, so operands are not independent."
 ],
 "C95": [
  "partial",
  "The independence of operands is refuted for every sequence of calls, with the exact condition; the rest is proved in full. The list of typers of the flags and options is given here and made in C96."
 ],
 "C96": [
  "proved",
  "For generators that make calls of the helpers of C86, from the constructor to get_cmd_inv_with_io. The dictionary from names to typers, which is dropped in the constructor, is no object of the heap."
 ],
 "C97": [
  "proved",
  "Every generate_info method of the repository is modelled as a program that calls the helpers on objects (HeapGenerators.v); it does what the model on values (IOGen.v) does. Which operands share an access is then read off the values: exactly those with equal accesses, since no method gives one kind in two calls (a check of the finite table of methods)."
 ],
 "C98": [
  "proved",
  "Calls of append_to_parallelizer_list with a parallelizer that a method makes itself are left out; C98_shipped names the shipped generators that make none. C99 treats uniq and grep."
 ],
 "C99": [
  "proved",
  "The flags are tested on the value of the invocation."
 ]
}