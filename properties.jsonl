{"id": "C01", "title": "Quoted words survive tokenisation", "statement": "If every word of a list is shell-quoted (shlex.quote) and the results are joined with blanks, tokenising the command string the way parse does gives back exactly the original list of words, in order.", "quantifier": "every finite list of words, of any length and any content", "why_tests_cant": "the space of word lists and quoting-relevant characters is infinite; a test only samples it", "anchors": ["pash_annotations/parser/parser.py:parse", "python stdlib shlex.split / shlex.quote (3.11)"]}
{"id": "C02", "title": "When parse raises", "statement": "parse(command) raises exactly in these cases: ValueError when a quote is not closed or the string ends in an escaping backslash, IndexError when the string has no word, and the data loader's own error when the data file lookup fails other than by a missing file. In every other case it returns an invocation whose command name is the first word.", "quantifier": "every command string and every behaviour of the data-file lookup", "why_tests_cant": "an 'exactly when' claim is about all strings", "anchors": ["pash_annotations/parser/parser.py:parse", "pash_annotations/parser/util_parser.py:get_json_data"]}
{"id": "C03", "title": "parse loses, invents and reorders nothing", "statement": "The words after the command name split uniquely into a prefix that is read as flags, options with their argument, and bundles of one-letter flags, and a suffix that becomes the operand list verbatim. The parsed flag/option list is the concatenation, in order, of what each prefix group denotes; every word is accounted for exactly once.", "quantifier": "every command string that tokenises, every JSON data file", "why_tests_cant": "relation between unboundedly long inputs and outputs", "anchors": ["pash_annotations/parser/parser.py:parse"]}
{"id": "C04", "title": "Where the operands start", "statement": "Operand recognition starts at the first word that is the empty string, or is neither a declared flag, nor a declared option followed by another word, nor a bundle of declared one-letter flags; from there on no word is ever interpreted again, even if it looks like a flag.", "quantifier": "every command string and data file", "why_tests_cant": "claim over all suffixes", "anchors": ["pash_annotations/parser/parser.py:parse"]}
{"id": "C05", "title": "Synonyms are canonicalised", "statement": "A flag or option written as a separate word under any of its declared spellings is reported under the first spelling of its declaration, so that exchanging a word for a synonym does not change the parse result.", "quantifier": "every word list, every position in it, every declared synonym pair of every well-formed data file", "why_tests_cant": "quantifies over all contexts in which the synonym may occur", "anchors": ["pash_annotations/parser/parser.py:get_dict_flag_to_primary_repr", "pash_annotations/parser/parser.py:get_dict_option_to_primary_repr"]}
{"id": "C06", "title": "Bundles of one-letter flags", "statement": "A word -xyz which is not itself declared and whose letters are all declared one-letter flags is parsed exactly like the separate words -x -y -z.", "quantifier": "every command string, bundle and position", "why_tests_cant": "all bundles in all contexts; the claim is false for letters that are not primary spellings (tr -Cd) and a test suite sampled only primary ones", "anchors": ["pash_annotations/parser/parser.py:are_all_individually_flags", "pash_annotations/parser/parser.py:parse"]}
{"id": "C07", "title": "Option arguments", "statement": "A declared option that is not a flag and is followed by a word always consumes exactly that next word as its argument, whatever the word is (even if it looks like a flag or is empty); an option that is the last word is never reported as an option.", "quantifier": "every command string and data file", "why_tests_cant": "all following words", "anchors": ["pash_annotations/parser/parser.py:parse"]}
{"id": "C08", "title": "Unknown commands", "statement": "For a command without data file every word after the command name is an operand: parse reports no flag and no option, and the operands are the words verbatim.", "quantifier": "every command string whose first word has no data file", "why_tests_cant": "infinitely many commands", "anchors": ["pash_annotations/parser/parser.py:parse", "pash_annotations/parser/util_parser.py:get_json_data", "pash_annotations/parser/command_flag_option_info/data/_default_data_for_commands.json"]}
{"id": "C09", "title": "Reparsing a parsed invocation", "statement": "Writing a parsed invocation back as words (name, flags, options with argument, operands), quoting and parsing it again returns the same invocation.", "quantifier": "every command string", "why_tests_cant": "round trip over all strings; false in general (non-primary letters in bundles) so the exact side condition matters", "anchors": ["pash_annotations/parser/parser.py:parse"]}
{"id": "C10", "title": "Only declared names are reported", "statement": "Every flag or option name in a parse result is declared for that command in its data file (possibly as an element of a bundle), and a reported option name is the first spelling of an option declaration.", "quantifier": "every command string and data file", "why_tests_cant": "claim over all outputs", "anchors": ["pash_annotations/parser/parser.py:parse"]}
{"id": "C11", "title": "--option=value", "statement": "As the README says, an option written --option=value is split at '=' and parsed like the two words --option value.", "quantifier": "every command with a declared long option and every value", "why_tests_cant": "a universally quantified documentation claim; refuted by the code", "anchors": ["pash_annotations/parser/parser.py:parse", "README.md"]}
{"id": "C12", "title": "Shipped data is understood as written", "statement": "For every shipped data file, each declared spelling of a flag is recognised as this flag (under its first spelling), each declared spelling of an option followed by a word is recognised as that option, and no other single word is recognised as a flag.", "quantifier": "all shipped data files and every word", "why_tests_cant": "'no other word' ranges over all strings; false for uniq because of string entries in its flag list and for mv --backup", "anchors": ["pash_annotations/parser/command_flag_option_info/data/", "pash_annotations/parser/parser.py:get_set_of_all"]}
{"id": "C13", "title": "Applying IO information keeps the invocation", "statement": "Whenever IO information is generated for an invocation it can be applied to that invocation without exception, and the result has the same command name, the same flag and option names in the same order, and for each operand and option argument, at the same position, the same text.", "quantifier": "every invocation for which IO information is produced, under any data files", "why_tests_cant": "all invocations incl. hand-built ones", "anchors": ["pash_annotations/annotation_generation/datatypes/InputOutputInfo.py:apply_input_output_info_to_command_invocation", "pash_annotations/annotation_generation/datatypes/InputOutputInfo.py:apply_typer_to_arg", "pash_annotations/annotation_generation/datatypes/InputOutputInfo.py:apply_typer_to_flagoption"]}
{"id": "C14", "title": "The '-' convention", "statement": "In an applied invocation the text '-' classified as an input denotes standard input and classified as an output denotes standard output; every other classified text denotes the file of that name, and '-' in an argument string position stays a string.", "quantifier": "every invocation", "why_tests_cant": "all operand texts and positions", "anchors": ["pash_annotations/annotation_generation/datatypes/InputOutputInfo.py:apply_typer_to_arg", "pash_annotations/util.py:compute_actual_el_for_input"]}
{"id": "C15", "title": "Option arguments are classified as declared", "statement": "For every invocation obtained by parse, each option argument is classified as a file with the declared access exactly if the data file declares the option's argument with type FILE, DIR or DIRECTORY and an access; any other option argument is an opaque string. Classification never fails for a parsed invocation of a shipped command.", "quantifier": "every command string over the shipped data", "why_tests_cant": "all parsed command lines", "anchors": ["pash_annotations/annotation_generation/annotation_generators/InputOutputInfoGenerator_Interface.py:get_dict_option_to_class_for_arg", "pash_annotations/parser/command_flag_option_info/data/"]}
{"id": "C16", "title": "Exactly when IO information is missing", "statement": "IO information is None exactly when the command is not annotated, or an option is not declared in the command's data, or the per-command operand-count rule is violated (listed per command in the specification).", "quantifier": "every invocation", "why_tests_cant": "an iff over all invocations", "anchors": ["pash_annotations/annotation_generation/AnnotationGeneration.py:get_input_output_info_from_cmd_invocation"]}
{"id": "C17", "title": "Side effects are announced", "statement": "has_other_outputs() of the IO information is true iff, after applying it, some operand or option argument is classified as an output that is not the streaming output.", "quantifier": "every invocation with IO information", "why_tests_cant": "iff over all invocations", "anchors": ["pash_annotations/annotation_generation/datatypes/InputOutputInfo.py:has_other_outputs", "pash_annotations/datatypes/CommandInvocationWithIO.py"]}
{"id": "C18", "title": "Operand accessors partition the operands", "statement": "For every applied invocation, the operands returned by the config-input, stream-input, other-input, stream-output and other-output accessors are sub-sequences of the operand list, pairwise disjoint in position, and together cover exactly the operands whose access is one of these kinds or that are argument strings. get_options_with_other_output returns, in order and as often as they occur, exactly the options whose argument is an output other than a streaming output.", "quantifier": "every invocation with IO", "why_tests_cant": "all operand lists", "anchors": ["pash_annotations/datatypes/CommandInvocationWithIO.py:get_operands_with_config_input"]}
{"id": "C19", "title": "cat, cut, head, tail, wc, sort: standard input iff no file operand", "statement": "For cat, cut, head, tail, wc, sort and custom_sort: standard input is streamed iff there is no operand (and, for sort, no --files0-from); all operands are streaming inputs; standard output is the output, except for sort -o.", "quantifier": "every invocation of these commands", "why_tests_cant": "all flag combinations and operand counts", "anchors": ["pash_annotations/annotation_generation/annotation_generators/"]}
{"id": "C20", "title": "grep and awk: pattern operand", "statement": "For grep (awk): without -e and -f (without -f) the first operand is a configuration string and the remaining operands are streaming inputs, standard input being used iff there is exactly one operand; with such an option all operands are streaming inputs and standard input is used iff there is none. No IO information is produced for a missing pattern. Standard output is used, unless grep -q.", "quantifier": "every invocation of grep and awk", "why_tests_cant": "all flag combinations and operand counts", "anchors": ["pash_annotations/annotation_generation/annotation_generators/InputOutputInfoGeneratorGrep.py", "pash_annotations/annotation_generation/annotation_generators/InputOutputInfoGeneratorAwk.py"]}
{"id": "C21", "title": "sed", "statement": "For sed standard input is streamed and standard output written; without -e/-f the first operand is the script (a configuration string); no IO information is produced if there is neither operand nor -e/-f; all other operands are streaming inputs.", "quantifier": "every invocation of sed", "why_tests_cant": "all flag combinations and operand counts", "anchors": ["pash_annotations/annotation_generation/annotation_generators/InputOutputInfoGeneratorSed.py"]}
{"id": "C22", "title": "comm, diff, uniq, set_diff: fixed arities", "statement": "comm gets IO information iff it has two operands, set_diff iff it has one (a configuration file), uniq iff it has at most two; all operands of comm and diff are streaming inputs; for uniq the second operand is the streaming output and replaces standard output, the first replaces standard input.", "quantifier": "every invocation of these commands", "why_tests_cant": "all operand counts", "anchors": ["pash_annotations/annotation_generation/annotation_generators/"]}
{"id": "C23", "title": "mv, rm, mkfifo, tee: written operands", "statement": "All operands of rm and mkfifo are other outputs; mv without -t reads all but the last operand and writes the last one, mv with one -t reads all operands, with several -t no information is given; tee streams standard input to standard output and every operand is a streaming output.", "quantifier": "every invocation of these commands", "why_tests_cant": "all operand counts and flag lists", "anchors": ["pash_annotations/annotation_generation/annotation_generators/"]}
{"id": "C24", "title": "tr, custom_tr, seq, xargs, col and the test commands", "statement": "tr, custom_tr, xargs: all operands are configuration strings, standard input to standard output. seq: all operands are strings, no input. col, alt_bigrams_aux, bigrams_aux, test_one, test_two stream standard input to standard output; alt_bigram_aux_reduce only writes standard output.", "quantifier": "every invocation of these commands", "why_tests_cant": "all operand lists", "anchors": ["pash_annotations/annotation_generation/annotation_generators/"]}
{"id": "C25", "title": "Exact parallelizers per command", "statement": "For every invocation the returned list of parallelizers is exactly the one the specification table gives as a function of the flags and operands (none, consecutive chunks, chunks and round robin; concat, adjacent merge/seq/func, 2-ary and n-ary aggregators), and the information is None exactly for commands without generator or when the generator needs a missing operand.", "quantifier": "every invocation", "why_tests_cant": "all flag and operand combinations", "anchors": ["pash_annotations/annotation_generation/AnnotationGeneration.py:get_parallelizability_info_from_cmd_invocation", "pash_annotations/annotation_generation/annotation_generators/"]}
{"id": "C26", "title": "Round robin is only combined with order-insensitive aggregation", "statement": "Every parallelizer that can be built by the constructors and everything returned for an invocation, including the inferred ones, never combines plain round-robin splitting with an aggregator other than concatenation or an adjacent-lines one.", "quantifier": "all constructor arguments and all invocations", "why_tests_cant": "all reachable objects", "anchors": ["pash_annotations/annotation_generation/datatypes/parallelizability/Parallelizer.py", "pash_annotations/annotation_generation/datatypes/ParallelizabilityInfo.py"]}
{"id": "C27", "title": "Inferred parallelizers", "statement": "get_inferred_parallelizer_list terminates and returns the stored parallelizers followed by, iff the command is commutative, one round-robin-with-unwrap copy of each consecutive-chunks parallelizer in order, differing from the original only in the splitter.", "quantifier": "every parallelizability information", "why_tests_cant": "all list lengths; the loop appends to the list it iterates over", "anchors": ["pash_annotations/annotation_generation/datatypes/ParallelizabilityInfo.py:get_inferred_parallelizer_list"]}
{"id": "C28", "title": "Asking twice", "statement": "unpack_info and get_inferred_parallelizer_list can be called repeatedly: every call returns the same list.", "quantifier": "every parallelizability information and every number of calls", "why_tests_cant": "history property; refuted: the list grows with each call for commutative commands", "anchors": ["pash_annotations/annotation_generation/datatypes/ParallelizabilityInfo.py"]}
{"id": "C29", "title": "Implemented means obtainable", "statement": "If are_all_parts_implemented() holds for a parallelizer then asking for its mapper and its aggregator never yields None, and if it does not hold then at least one of them yields None (outside of the auxiliary-information case).", "quantifier": "every parallelizer and IO-var invocation on which the calls succeed", "why_tests_cant": "all specs and invocations", "anchors": ["pash_annotations/annotation_generation/datatypes/parallelizability/Parallelizer.py", "pash_annotations/annotation_generation/datatypes/parallelizability/MapperSpec.py", "pash_annotations/annotation_generation/datatypes/parallelizability/AggregatorSpec.py"]}
{"id": "C30", "title": "Flag-list transformers", "statement": "Filter keeps exactly the entries with listed names, Remove exactly the others, both in the original order; Add appends the missing entries and keeps the original as a prefix; Chain applies the transformers from left to right; the transformed list never contains an entry that is neither original nor explicitly added.", "quantifier": "every transformer, however nested, and every flag list", "why_tests_cant": "unbounded nesting and lists", "anchors": ["pash_annotations/annotation_generation/datatypes/parallelizability/TransformerFlagOptionList.py"]}
{"id": "C31", "title": "Merge flags of sort", "statement": "The flags of the aggregator of a parallelizable sort are exactly the order-relevant flags of the original invocation, in order, followed by -m; in particular -o never reaches the aggregator.", "quantifier": "every sort invocation with a parallelizer", "why_tests_cant": "all flag lists", "anchors": ["pash_annotations/annotation_generation/annotation_generators/ParallelizabilityInfoGeneratorSort.py", "pash_annotations/annotation_generation/datatypes/parallelizability/AggregatorSpec.py"]}
{"id": "C32", "title": "Round trip of applying a parallelizer's decision: grep context and limit flags", "statement": "grep invocations whose output for a chunk depends on other chunks (-m, -A, -B, -C) get no parallelizer.", "quantifier": "every grep invocation", "why_tests_cant": "all flag lists; refuted by the code, the sound part is proved against a line semantics of grep", "anchors": ["pash_annotations/annotation_generation/annotation_generators/ParallelizabilityInfoGeneratorGrep.py"]}
{"id": "C33", "title": "tr and newlines", "statement": "A tr invocation that deletes or squeezes newline is never annotated as parallelizable by mere concatenation.", "quantifier": "every tr command string", "why_tests_cant": "all set operands; refuted for sets that start with the newline escape", "anchors": ["pash_annotations/annotation_generation/annotation_generators/ParallelizabilityInfoGeneratorTr.py", "pash_annotations/datatypes/BasicDatatypes.py:Operand.contains_new_line"]}
{"id": "C34", "title": "Substituting streaming inputs and outputs", "statement": "Given pairwise different fresh io variables, as many as there are streaming inputs, substitute_inputs replaces the streaming inputs, in traversal order, by the new variables, each new variable gets the access of the one it replaces, and nothing else changes: outputs, config inputs, strings, flags and all other accesses are as before. The same holds for substitute_outputs.", "quantifier": "every well-formed invocation with io variables and all lists of fresh variables", "why_tests_cant": "unbounded number of inputs, all invocations", "anchors": ["pash_annotations/datatypes/CommandInvocationWithIOVars.py:substitute_inputs", "pash_annotations/datatypes/CommandInvocationWithIOVars.py:substitute_outputs"]}
{"id": "C35", "title": "Wrong number of replacement variables", "statement": "With too few variables substitution raises IndexError, with too many AssertionError, and it never silently ignores a variable.", "quantifier": "every well-formed invocation, all lists of variables", "why_tests_cant": "all length mismatches", "anchors": ["pash_annotations/datatypes/CommandInvocationWithIOVars.py:substitute_inputs", "pash_annotations/datatypes/CommandInvocationWithIOVars.py:substitute_outputs"]}
{"id": "C36", "title": "Substitution does not need fresh variables", "statement": "Substituting streaming inputs by any list of variables of the right length has the effect of a simultaneous replacement.", "quantifier": "every invocation and list of variables", "why_tests_cant": "refuted: variables that already occur later in the invocation lose their access", "anchors": ["pash_annotations/datatypes/CommandInvocationWithIOVars.py:replace_var_consistently"]}
{"id": "C37", "title": "Generating inputs and outputs", "statement": "generate_inputs returns the streaming inputs and generate_outputs all outputs in traversal order (options, operands, implicit input, implicit output), has_other_outputs tells whether some non-streaming output is among them, and none of these calls changes the invocation.", "quantifier": "every well-formed invocation with io variables", "why_tests_cant": "all invocations", "anchors": ["pash_annotations/datatypes/CommandInvocationWithIOVars.py:generate_inputs", "pash_annotations/datatypes/CommandInvocationWithIOVars.py:generate_outputs", "pash_annotations/datatypes/CommandInvocationWithIOVars.py:has_other_outputs"]}
{"id": "C38", "title": "Option arguments are visited", "statement": "Every io variable of an invocation, including those in option arguments, is seen by generate_inputs, generate_outputs, has_other_outputs, substitution and removal.", "quantifier": "every invocation with io variables", "why_tests_cant": "refuted: options with io variables are skipped", "anchors": ["pash_annotations/datatypes/CommandInvocationWithIOVars.py:flat_map"]}
{"id": "C39", "title": "Removing streaming inputs or outputs", "statement": "After remove_streaming_inputs no streaming input remains, the removed variables have no access, and every other variable keeps its position relative to the others and its access; likewise for outputs. The call raises (ValueError) exactly if an option argument would have to be removed.", "quantifier": "every well-formed invocation with io variables", "why_tests_cant": "all invocations", "anchors": ["pash_annotations/datatypes/CommandInvocationWithIOVars.py:remove_streaming_inputs", "pash_annotations/datatypes/CommandInvocationWithIOVars.py:remove_streaming_outputs"]}
{"id": "C40", "title": "Replacing one variable", "statement": "replace_var replaces the occurrence of a variable by the new variable and nothing else, and moves its access to the new variable, all other accesses being untouched. If the variable does not occur (or is None) nothing changes; if it has no access or occurs twice the call raises AssertionError.", "quantifier": "every invocation and pair of variables", "why_tests_cant": "all invocations", "anchors": ["pash_annotations/datatypes/CommandInvocationWithIOVars.py:replace_var"]}
{"id": "C41", "title": "Histories of updates keep the invocation consistent", "statement": "Starting from a consistent invocation (no variable occurs twice, every occurring variable has an access), every finite sequence of successful substitutions with fresh variables, replacements by fresh registered variables, removals and queries leaves a consistent invocation.", "quantifier": "every finite history of operations", "why_tests_cant": "induction over unbounded histories", "anchors": ["pash_annotations/datatypes/CommandInvocationWithIOVars.py"]}
{"id": "C42", "title": "Failed updates leave the invocation usable", "statement": "If a substitution raises, the invocation is still consistent.", "quantifier": "every invocation and every failing call", "why_tests_cant": "exception points inside loops; refuted: the access map is updated before the operand list", "anchors": ["pash_annotations/datatypes/CommandInvocationWithIOVars.py:substitute_inputs"]}
{"id": "C43", "title": "Sequential and custom mappers", "statement": "The mapper of a parallelizer is None iff it is not implemented; otherwise it is the original invocation (or the custom command with its flags) with the single streaming input and output replaced by the given variables, the accesses of which are those of the replaced ones; all else is kept.", "quantifier": "every mapper spec, invocation and pair of fresh variables", "why_tests_cant": "all invocations", "anchors": ["pash_annotations/annotation_generation/datatypes/parallelizability/MapperSpec.py:get_mapper"]}
{"id": "C44", "title": "Mappers with auxiliary outputs", "statement": "With auxiliary outputs the mapper has exactly the operands input, output, auxiliary outputs, in this order, with streaming input access for the first and streaming output access for all others, and no implicit input or output; the accesses of the former operands are dropped.", "quantifier": "every mapper spec, invocation and list of auxiliary variables", "why_tests_cant": "unbounded number of auxiliary outputs", "anchors": ["pash_annotations/annotation_generation/datatypes/parallelizability/MapperSpec.py:get_mapper"]}
{"id": "C45", "title": "Concatenating aggregator", "statement": "The concatenation aggregator is cat with exactly the given inputs as operands in order, all streaming inputs, the given output as implicit streaming output and nothing else.", "quantifier": "all lists of input variables and every output variable not among them", "why_tests_cant": "unbounded lists", "anchors": ["pash_annotations/annotation_generation/datatypes/parallelizability/AggregatorSpec.py", "pash_annotations/datatypes/CommandInvocationWithIOVars.py:make_cat_command_from_list_input_output"]}
{"id": "C46", "title": "Aggregators by flag transformation", "statement": "The aggregator obtained by flag transformation has the command name of the original, the transformed flags, the given inputs as operands with streaming input access, and writes to the given output; input variables already known to the invocation are rejected.", "quantifier": "every invocation, transformer and list of fresh variables", "why_tests_cant": "all invocations and transformers", "anchors": ["pash_annotations/annotation_generation/datatypes/parallelizability/AggregatorSpec.py"]}
{"id": "C47", "title": "Aggregators by command string", "statement": "An aggregator given by a string has the command name and flags of the string and exactly the given inputs/outputs as variables, with their accesses; arity rules of the aggregator kinds are enforced.", "quantifier": "every string that parses to flags, all lists of variables", "why_tests_cant": "all lists", "anchors": ["pash_annotations/annotation_generation/datatypes/parallelizability/AggregatorSpec.py"]}
{"id": "C48", "title": "Planning does not modify the original invocation", "statement": "Asking a parallelizer for mappers and aggregators leaves the original invocation with io variables unchanged (also the objects it shares with the result), and later changes to the result do not show in the original.", "quantifier": "every invocation, spec and later history of updates of the results", "why_tests_cant": "aliasing and history property over all heaps", "anchors": ["pash_annotations/datatypes/CommandInvocationWithIOVars.py", "pash_annotations/annotation_generation/datatypes/parallelizability/MapperSpec.py", "pash_annotations/annotation_generation/datatypes/parallelizability/AggregatorSpec.py"]}
{"id": "C49", "title": "The command line tool does not overwrite files", "statement": "annotation_cli with a save target never changes an existing file and saves to a new one.", "quantifier": "every file system state and target", "why_tests_cant": "all file system states; refuted, the test is inverted", "anchors": ["pash_annotations/annotation_cli.py"]}
{"id": "C50", "title": "Sound parallelization of sort", "statement": "If sort is annotated as parallelizable then sorting arbitrary chunks of the input separately and merging the results with the annotated aggregator flags gives the sorted whole input; with the round-robin splitter any distribution of the lines is allowed when the order is total.", "quantifier": "every input, every chunking and distribution, every order determined by the kept flags", "why_tests_cant": "infinitely many inputs and chunkings", "anchors": ["pash_annotations/annotation_generation/annotation_generators/ParallelizabilityInfoGeneratorSort.py"]}
{"id": "C51", "title": "Sound parallelization of line filters", "statement": "If grep is annotated as parallelizable and has none of the flags -m -A -B -C then its output on any consecutive chunks concatenates to its output on the whole input; the same for cut-like per-line commands.", "quantifier": "every input and chunking", "why_tests_cant": "infinitely many inputs", "anchors": ["pash_annotations/annotation_generation/annotation_generators/ParallelizabilityInfoGeneratorGrep.py", "pash_annotations/annotation_generation/annotation_generators/ParallelizabilityInfoGeneratorCut.py"]}
{"id": "C52", "title": "Access kinds", "statement": "Every access kind can be named by exactly one string, any other string raises, and each kind is input or output but never both; streaming implies not 'other'.", "quantifier": "all strings", "why_tests_cant": "all strings", "anchors": ["pash_annotations/datatypes/AccessKind.py"]}
{"id": "C53", "title": "Deduplication and folds", "statement": "list_deduplication returns the list of first occurrences in order: same elements, no duplicates, a subsequence of its argument; foldl applies the function left to right.", "quantifier": "all lists", "why_tests_cant": "all lists", "anchors": ["pash_annotations/util.py"]}
{"id": "C54", "title": "Man page scraper output", "statement": "Data produced by args-to-json for option lines is such that every entry of its flag list is a list of spellings the parser can use.", "quantifier": "all option lines", "why_tests_cant": "refuted: lines that mix forms with and without argument append bare strings, the origin of the uniq data defect", "anchors": ["pash_annotations/parser/command_flag_option_info/args-to-json.py"]}
{"id": "C55", "title": "Setters of the input/output information", "statement": "Each setter of InputOutputInfo retypes exactly the operands its name says (all, only the first, only the last, all but the first, all but the last) to the type its name says and changes nothing else, whatever was set before; the first/last setters raise IndexError exactly when there is no operand.", "quantifier": "every input/output information, of any number of operands and any history", "why_tests_cant": "a test fixes the number of operands and the order of calls; refuted for the three setters of streaming inputs, which do nothing and so rely on never being called after another setter", "anchors": ["pash_annotations/annotation_generation/datatypes/InputOutputInfo.py:all_operands_are_streaming_inputs", "pash_annotations/annotation_generation/datatypes/InputOutputInfo.py:all_but_last_operand_is_other_input", "pash_annotations/annotation_generation/datatypes/InputOutputInfo.py:only_last_operand_is_stream_output"]}
{"id": "C56", "title": "What the command line tool reports", "statement": "annotation_cli reports, for every command that parses, the parsed invocation, the input/output information applied to it (or that there is none, or that there are outputs other than streaming ones) and the parallelizability information of the annotations (the empty one if there is none). It raises only when the command does not parse or the target cannot be written. The target path is the given one relative to the directory of the script, not relative to the directory it is called from as the help text says.", "quantifier": "every command string, data directory, script path, target and file system state", "why_tests_cant": "the report depends on all commands and the state of the file system", "anchors": ["pash_annotations/annotation_cli.py"]}
{"id": "C57", "title": "Specification objects and their defaults", "statement": "A mapper specification, parallelizer or flag transformer has exactly the attributes it is built from: a sequential mapper with command name or transformer is rejected, a parallelizer without mapper uses the command itself, without aggregator the concatenation, without additional information none, a missing transformer keeps all flags (or none, for the other default), and unpack_info returns the inferred list, the compatibility with cat and commutativity in this order.", "quantifier": "every combination of arguments", "why_tests_cant": "all combinations of arguments, kinds and transformers", "anchors": ["pash_annotations/annotation_generation/datatypes/parallelizability/MapperSpec.py", "pash_annotations/annotation_generation/datatypes/parallelizability/Parallelizer.py", "pash_annotations/annotation_generation/datatypes/ParallelizabilityInfo.py:unpack_info", "pash_annotations/annotation_generation/datatypes/parallelizability/TransformerFlagOptionList.py"]}
{"id": "C58", "title": "Concatenating the results of tr", "statement": "If tr is offered the concatenation of the results of its parts, then for every input that is cut at ends of lines the concatenation is what tr prints for the whole input.", "quantifier": "every tr command string, every input and every cut, every meaning of the sets", "why_tests_cant": "infinitely many inputs and cuts; refuted for tr -s whose last set starts with the newline escape, with the exact condition", "anchors": ["pash_annotations/annotation_generation/annotation_generators/ParallelizabilityInfoGeneratorTr.py", "pash_annotations/datatypes/BasicDatatypes.py:Operand.contains_new_line"]}
{"id": "C59", "title": "Concatenating the results of sed", "statement": "If sed is offered the concatenation of the results of its parts, then for every input that is cut at ends of lines the concatenation is what sed prints for the whole input.", "quantifier": "every sed command string, every script of the language without writing files, every input and every cut", "why_tests_cant": "infinitely many scripts, inputs and cuts; refuted for scripts with line numbers, the last line, ranges, the next line, quitting and data carried in the hold space, and for -z", "anchors": ["pash_annotations/annotation_generation/annotation_generators/ParallelizabilityInfoGeneratorSed.py"]}
{"id": "C60", "title": "Concatenating the results of xargs", "statement": "If xargs is offered the concatenation of the results of its parts, then for every input that is cut at ends of lines the concatenation is what xargs prints for the whole input.", "quantifier": "every command run by xargs, every number of arguments, every input and every cut", "why_tests_cant": "infinitely many commands, inputs and cuts; refuted unless arguments are passed one by one and -r is given, with the exact condition", "anchors": ["pash_annotations/annotation_generation/annotation_generators/ParallelizabilityInfoGeneratorXargs.py"]}
{"id": "C61", "title": "Combining the results of uniq", "statement": "If uniq is offered the aggregation that runs the command on the last line of one result and the first line of the next, then for every input that is cut at ends of lines the combined results are what uniq prints for the whole input.", "quantifier": "every uniq command string, every way to compare lines, every input, every cut and every order of combination", "why_tests_cant": "infinitely many inputs, cuts and comparisons; refuted for -u, -z and some ways of --group, with the exact condition", "anchors": ["pash_annotations/annotation_generation/annotation_generators/ParallelizabilityInfoGeneratorUniq.py", "pash_annotations/annotation_generation/datatypes/parallelizability/AggregatorKind.py"]}
{"id": "C62", "title": "Merging adjacent lines after tr -d", "statement": "If tr -d is offered the aggregation that merges the last line of one result with the first line of the next, then the merged results are what tr prints for the whole input.", "quantifier": "every tr command string that deletes newlines, every input, every cut and every order of combination", "why_tests_cant": "infinitely many inputs and cuts; refuted: the proposed merge command adds a newline as soon as two parts leave something", "anchors": ["pash_annotations/annotation_generation/annotation_generators/ParallelizabilityInfoGeneratorTr.py", "pash_annotations/annotation_generation/datatypes/parallelizability/AggregatorSpec.py:get_aggregator"]}
{"id": "C63", "title": "Combining auxiliary results of bigrams", "statement": "If bigrams_aux is offered the parallelizer whose processes also write their first and last line, then for every input that is cut at ends of lines the combined result is what bigrams_aux prints for the whole input.", "quantifier": "every input, every cut, every tree of combinations and every choice of variables for the auxiliary results", "why_tests_cant": "infinitely many inputs, cuts and trees; refuted as soon as one part is empty and another is not, with the exact condition", "anchors": ["pash_annotations/annotation_generation/annotation_generators/ParallelizabilityInfoGeneratorBigramsAux.py", "pash_annotations/annotation_generation/datatypes/parallelizability/AggregatorSpec.py:AggregatorSpecNonFunc.get_actual_2_ary_aggregator_with_aux", "pash_annotations/annotation_generation/datatypes/parallelizability/MapperSpec.py:MapperSpec.get_mapper"]}
{"id": "C64", "title": "Formatting the words of a script", "statement": "ArgStringType built from the characters of a word prints text that a shell-like reader takes for exactly this word. Formatting succeeds exactly for entries with valid codes and known keys, entry by entry; NotImplementedError means that an entry of unknown kind occurs.", "quantifier": "every list of entries, with double quotes nested to any depth", "why_tests_cant": "unboundedly many words and nestings; refuted for escaped blanks, quotes and backslashes, whose backslash is dropped, with the exact condition", "anchors": ["pash_annotations/datatypes/BasicDatatypes.py:format_arg_chars", "pash_annotations/datatypes/BasicDatatypes.py:format_arg_char", "pash_annotations/datatypes/BasicDatatypes.py:get_kv"]}
{"id": "C65", "title": "Comparing objects", "statement": "Comparing two objects with == ends with a result. Two values are equal iff they have the same class and equal attributes, all the way down; equality is an equivalence; objects of different classes are never equal; a deep copy is equal to its original; invocations (and mappers) are equal iff they have the same name, flags, operands, implicit streams and accesses, regardless of the order in which the accesses were entered.", "quantifier": "every heap without cycles, all values", "why_tests_cant": "recursion to any depth over all heaps; copies are refuted for objects that contain an OptionWithIOVar, which has no __eq__, with the exact condition", "anchors": ["pash_annotations/util_standard.py:standard_eq", "pash_annotations/datatypes/CommandInvocationWithIOVars.py:__eq__", "pash_annotations/datatypes/BasicDatatypes.py:__eq__", "pash_annotations/datatypes/BasicDatatypesWithIOVar.py"]}
{"id": "C66", "title": "Operands and options by access", "statement": "The accessors of an invocation with io variables for operands with some access return exactly the operands with this access, in order; the accessor for options returns the options with other outputs.", "quantifier": "every invocation with io variables", "why_tests_cant": "all invocations; refuted: the accessors look for names of files instead of variables and so find nothing, right exactly if there is nothing to find", "anchors": ["pash_annotations/datatypes/CommandInvocationWithIOVars.py:get_operands_with_config_input", "pash_annotations/datatypes/CommandInvocationWithIOVars.py:get_operands_with_stream_input", "pash_annotations/datatypes/CommandInvocationWithIOVars.py:get_options_with_other_output"]}
{"id": "C67", "title": "Small containers", "statement": "Inputs returns its configuration and streaming parts (and the concatenation) exactly when it is streaming and raises AssertionError otherwise. CommandProperties returns what was set last for a name, or what the constructor was given, or None. make_arg_simple makes a flag of one word, an option of two and rejects everything else. The functions that add an access to a file or descriptor return it with that access.", "quantifier": "every container, every sequence of updates, every list of words", "why_tests_cant": "unbounded histories; the last part is refuted, these functions always raise", "anchors": ["pash_annotations/annotation_generation/datatypes/Inputs.py", "pash_annotations/annotation_generation/datatypes/CommandProperties.py", "pash_annotations/util_flag_option.py:make_arg_simple", "pash_annotations/datatypes/BasicDatatypesWithIO.py"]}
{"id": "C68", "title": "Concatenation for any command", "statement": "Whatever command is offered the concatenation of the results of its parts, the plans print what the command prints exactly if its output for an input is, at every end of a line, the output for what comes before followed by the output for what comes after. Only col, custom_tr, cut, grep, sed, set_diff, tr and xargs are ever offered it.", "quantifier": "every system, every command and data directory, every kind of input closed under dropping lines, every tree of concatenations", "why_tests_cant": "quantifies over all programs a command name may stand for and all inputs", "anchors": ["pash_annotations/annotation_generation/annotation_generators/ParallelizabilityInfoGenerator_Interface.py:append_to_parallelizer_list_cc_seq_conc", "pash_annotations/annotation_generation/datatypes/parallelizability/AggregatorSpec.py:get_aggregator"]}
{"id": "C69", "title": "Pairs of lines without auxiliary results", "statement": "If alt_bigrams_aux is offered its two-way aggregator, then running the aggregator on the results for the parts gives the result for the whole input.", "quantifier": "every pair of programs behind the two command names, every input, every cut, every binary tree", "why_tests_cant": "infinitely many inputs, cuts and programs; exact condition for every pair of programs; refuted for every aggregator program if the command prints the pairs of adjacent lines", "anchors": ["pash_annotations/annotation_generation/annotation_generators/ParallelizabilityInfoGeneratorAltBigramsAux.py:generate_info", "pash_annotations/annotation_generation/datatypes/parallelizability/AggregatorSpec.py:get_aggregator"]}
{"id": "C70", "title": "Command lines are read like the command reads them", "statement": "For every line that a GNU command understands, parse finds the same options, with the same arguments and in the same order, and the same operands as the command itself does.", "quantifier": "every command string for the 19 annotated GNU commands", "why_tests_cant": "infinitely many lines; refuted for options after operands, for --, for attached arguments and for the words whose declaration differs from the manual (diff -u, grep --color, tail -n, xargs -0, sed -e, awk -F and others), with the exact condition", "anchors": ["pash_annotations/parser/parser.py:parse", "pash_annotations/parser/command_flag_option_info/data/"]}
{"id": "C71", "title": "Everything a command reads and writes is announced", "statement": "For every line that a GNU command understands and for which there is input/output information, each file or standard stream the command reads or writes according to its manual occurs in that information with an access of the right direction, and for most commands nothing else does.", "quantifier": "every command string for the 19 annotated GNU commands", "why_tests_cant": "infinitely many lines and file names; refuted for mv, whose sources are inputs only, rm -v and -i, grep --regexp and grep -r without files, awk with assignments only, sort -o -, tee -, sed -i, diff -u, and output options after operands, with the exact condition per command on plain lines", "anchors": ["pash_annotations/annotation_generation/datatypes/InputOutputInfo.py", "pash_annotations/annotation_generation/annotation_generators/InputOutputInfoGeneratorMv.py", "pash_annotations/annotation_generation/annotation_generators/InputOutputInfoGeneratorGrep.py", "pash_annotations/annotation_generation/annotation_generators/InputOutputInfoGeneratorAwk.py", "pash_annotations/parser/command_flag_option_info/data/"]}
{"id": "C72", "title": "The report can be read", "statement": "The texts printed for objects determine them: two command lines get the same text for the parsed invocation, for the invocation with input/output information or for the parallelizability information only if these are the same, and no information is told from empty information.", "quantifier": "all invocations, with and without input/output information, all parallelizability information", "why_tests_cant": "printing is claimed to be injective on infinitely many objects of any size; refuted for operands that are empty or contain commas, for arguments with newline characters and for the two hidden pieces of information of a parallelizer, with the exact condition", "anchors": ["pash_annotations/util_standard.py:standard_repr", "pash_annotations/datatypes/BasicDatatypes.py:__repr__", "pash_annotations/annotation_generation/datatypes/parallelizability/Parallelizer.py:__repr__", "pash_annotations/annotation_cli.py:main"]}
{"id": "C73", "title": "From a command line to a right plan", "statement": "A command line is parsed, gets input/output information, its files and streams are replaced by variables and it is offered parallelizers. Whichever way the variables are chosen, there is exactly one streaming input for the plans, standard output is the only streaming output and no option has a stream exactly for the command lines with at most one input file (or, for some commands, one operand) and no output option. For these the plans of cut, grep, sort, tr, uniq and xargs print what the command prints exactly under a condition on the words of the command line; for sed under a sufficient one, which is exact for scripts of one command that concerns single lines.", "quantifier": "every command string, every way of choosing variables, every system, every plan and every input", "why_tests_cant": "joins parsing, classification, numbering and planning over all command lines", "anchors": ["pash_annotations/parser/parser.py:parse", "pash_annotations/annotation_generation/datatypes/InputOutputInfo.py", "pash_annotations/datatypes/CommandInvocationWithIOVars.py", "pash_annotations/annotation_generation/datatypes/ParallelizabilityInfo.py"]}
{"id": "C74", "title": "Registering a command concerns this command only", "statement": "A new entry in the table of commands, with files for its generators, gives exactly the new command information and leaves the information of all other commands as it is; a new data file concerns only lines that begin with its command. A command gets information exactly if its representation is registered and the file defines the class. A defect in the files of one command does not take away the information of others, and a generator file that cannot be imported is reported.", "quantifier": "every table, every state of the generator modules and of the data directory, all invocations", "why_tests_cant": "quantifies over all future tables and generator files; refuted for the representation None, for files that lack their class or raise (all information is lost), for files whose own imports are missing (silently ignored), for the file name in the guide, and for the functions of config/definitions.py, which raise for every table", "anchors": ["pash_annotations/annotation_generation/AnnotationGeneration.py", "pash_annotations/config/definitions.py", "docs/adding-annotations.md", "pash_annotations/parser/util_parser.py"]}
{"id": "C75", "title": "What the information depends on", "statement": "The input/output information of an invocation depends, apart from its options, only on the command, the number of operands and on whether a few flags occur; parallelizability only on whether a few flags occur and, for sed and tr, on the first or last operand. The order of flags and options, their repetition (but for mv -t) and their arguments do not matter, nor does any other flag. Each of the few flags does matter.", "quantifier": "every two invocations of the same command", "why_tests_cant": "relates all pairs of invocations, with flag lists of any length", "anchors": ["pash_annotations/annotation_generation/annotation_generators/Generator_Interface.py:does_flag_option_list_contain_at_least_one_of", "pash_annotations/annotation_generation/datatypes/InputOutputInfo.py", "pash_annotations/annotation_generation/AnnotationGeneration.py"]}
{"id": "C76", "title": "Pipelines of parallelized commands", "statement": "If every command of a pipeline is parallelized soundly, running the pipeline stage by stage in parallel gives what the sequential pipeline gives. If moreover all stages but the last concatenate their results, the parts may go through the whole pipeline side by side and be combined after the last stage only.", "quantifier": "pipelines of any length, every system, every input, every cut and every plan of every stage", "why_tests_cant": "infinitely many pipelines, inputs and cuts; the second part needs that these stages keep the ends of lines, as cut, grep and sed do and tr does under an exact condition, and is refuted without (tr '\\n' ' ' | cut -c 1)", "anchors": ["pash_annotations/annotation_generation/datatypes/parallelizability/Parallelizer.py:get_actual_mapper", "pash_annotations/annotation_generation/datatypes/parallelizability/Parallelizer.py:get_actual_aggregator", "pash_annotations/annotation_generation/datatypes/parallelizability/AggregatorSpec.py:get_aggregator", "pash_annotations/annotation_generation/annotation_generators/ParallelizabilityInfoGeneratorTr.py"]}
{"id": "C77", "title": "Outputs that depend on chance or order", "statement": "If the output of a command depends on chance, on the order in which processes end or on answers of a user, running its parts in parallel and concatenating the results gives only what the command may give on the whole input, exactly if this holds for every cut into two at an end of a line; it gives a fixed output exactly if moreover the command does. For xargs with -P, -p, -E and -a: exactly for the uses without -a and without an effective -E that pass arguments one by one or line by line.", "quantifier": "every system, every command, every resolution of chance, every kind of input closed under dropping lines, every tree of concatenations", "why_tests_cant": "quantifies over all schedules and answers; refuted for xargs -a and -E, with the exact condition", "anchors": ["pash_annotations/annotation_generation/annotation_generators/ParallelizabilityInfoGeneratorXargs.py", "pash_annotations/annotation_generation/datatypes/parallelizability/AggregatorSpec.py:get_aggregator", "pash_annotations/annotation_generation/datatypes/parallelizability/Parallelizer.py:get_actual_mapper"]}
{"id": "C78", "title": "Functions for adjacent lines that are still to be written", "statement": "The generators of tr and uniq name two functions that combine the last line of one result with the first line of the next and do not exist yet. For tr -s that acts on newlines, squeezing the two lines again is right for every plan; dropping an empty first line, as the name says, exactly if tr keeps and squeezes newlines or never writes one and does not squeeze what it writes for them. For uniq -c, adding the numbers if the command merges the two lines without them is right; some function is right for all ways to compare lines exactly if none of -u -z --help --version is given. With -d or -u no function of adjacent lines is right.", "quantifier": "every command line that is offered such a plan, every translation, every way to compare lines, every function of two lines, every plan and cut", "why_tests_cant": "quantifies over all functions that could be written, all texts and all trees; the repository has placeholders only", "anchors": ["pash_annotations/annotation_generation/annotation_generators/ParallelizabilityInfoGeneratorTr.py", "pash_annotations/annotation_generation/annotation_generators/ParallelizabilityInfoGeneratorUniq.py", "pash_annotations/annotation_generation/datatypes/parallelizability/AggregatorKind.py", "pash_annotations/annotation_generation/datatypes/parallelizability/AggregatorSpec.py:make_aggregator_spec_adj_lines_func_from_string_representation"]}
{"id": "C79", "title": "What grep is meant to get", "statement": "For grep -l, -L, -c, -n and -b the generator prepares plans with functions that do not exist yet and then drops them. Once they exist, the check that drops them can be removed. With them the plans print what grep prints: keeping the longer of two outputs for -l and -L, adding up for -c, adding the numbers of lines and bytes before each part for -n and -b.", "quantifier": "every grep command line, every meaning of the pattern, every input, every cut and every tree of combinations", "why_tests_cant": "quantifies over functions that are still to be written, all texts and all trees; refuted: without the check grep -l, -L and -c raise AssertionError and get no information at all, and for -L the shorter output is needed; -l and -L are right exactly without -z (or with --help, -V or a limit of 0), -c exactly without -z, --max-count, --help and -V (or with a limit of 0); for -n and -b no function without the numbers of the splitter is right", "anchors": ["pash_annotations/annotation_generation/annotation_generators/ParallelizabilityInfoGeneratorGrep.py:generate_info", "pash_annotations/annotation_generation/datatypes/parallelizability/Parallelizer.py:__init__", "pash_annotations/annotation_generation/datatypes/parallelizability/Parallelizer.py:AdditionalInfoSplitterToMapper", "pash_annotations/annotation_generation/datatypes/parallelizability/AggregatorKind.py"]}
{"id": "C80", "title": "From the text of a data file to the data", "statement": "Reading the data of a command gives exactly the data the JSON text of its file denotes (of the default file if there is none), where the last of several members with the same name counts; a text that is no JSON document raises ValueError, also if the default file could be read, in particular every shipped file cut before its last character that is no blank. The shipped files denote the tables the other theorems are about. What the scraper writes for a man page is plain ASCII and is read back without loss: exactly the flags and options announced by the lines that start with seven blanks and a dash.", "quantifier": "every text, every directory of texts, every value, every man page", "why_tests_cant": "infinitely many texts, values of any depth, every position of a cut", "anchors": ["pash_annotations/parser/util_parser.py:get_json_data", "pash_annotations/parser/command_flag_option_info/args-to-json.py:parse", "pash_annotations/parser/command_flag_option_info/manpage-to-json.sh", "pash_annotations/parser/command_flag_option_info/data/"]}
{"id": "C81", "title": "The earlier records and the generators agree", "statement": "The repository keeps the records of an earlier annotation language. Every file is a JSON document with a record; the records put every invocation of a command they name into exactly one class, and the classes are those of the README. An invocation that the records call stateless or parallelizable pure is offered a parallelizer by the generators and vice versa.", "quantifier": "every invocation, with any flags, options and operands, of every command", "why_tests_cant": "infinitely many invocations; the agreement is refuted, with the exact list of invocations that lost or gained parallelizability: cat without -n, grep -n and others, sort -u and others, fourteen commands without generators; sed scripts, uniq, tr -s, cut with a newline as delimiter and recursive grep; two classes are misspelt; for cut the records warn of a harmless delimiter and not of -z", "anchors": ["pash_annotations/old_annotations", "pash_annotations/annotation_generation/AnnotationGeneration.py", "pash_annotations/annotation_generation/annotation_generators/ParallelizabilityInfoGeneratorSort.py"]}
{"id": "C82", "title": "The streams of the earlier records", "statement": "The earlier records give every invocation of a command they name exactly one list of input streams and one of output streams, and these are the streaming inputs and outputs that the generators find.", "quantifier": "every invocation, with any flags, options and operands, of every command with a record and a generator", "why_tests_cant": "infinitely many invocations; refuted, with the exact condition: always for recursive grep, mkfifo and rm; for commands with file operands the records name standard input only; the pattern of grep and the scripts of others, options with streams and the hyphen are treated differently", "anchors": ["pash_annotations/old_annotations", "pash_annotations/annotation_generation/datatypes/InputOutputInfo.py", "pash_annotations/annotation_generation/annotation_generators/InputOutputInfoGeneratorGrep.py", "pash_annotations/annotation_generation/annotation_generators/InputOutputInfoGeneratorSort.py", "pash_annotations/annotation_generation/annotation_generators/InputOutputInfoGeneratorTee.py"]}
{"id": "C83", "title": "The words given to the tool", "statement": "Every command string can be handed to the command line tool unchanged. The tool looks at the command that is given last and at the destination that is given last, whether options are abbreviated, joined with their arguments or not, and accepts nothing else; otherwise it prints its help and ends with status 0, or ends with status 2, and nothing is written.", "quantifier": "every list of words, of any length and with any content", "why_tests_cant": "infinitely many command lines; refuted for strings that begin with a dash in a word of their own and for two dashes, with the exact condition on the string and on the list of words", "anchors": ["pash_annotations/annotation_cli.py:13-23", "pash_annotations/annotation_cli.py:main"]}
{"id": "C84", "title": "Texts of invocations with variables", "statement": "Printing any object built from invocations, mappers and aggregators gives exactly one text, which other objects do not influence. Equal invocations and deep copies print the same text, and invocations with the same text have the same class, kind, name, flags, operands, implicit streams and accesses.", "quantifier": "every heap without cycles, all values, every assignment of places to objects", "why_tests_cant": "recursion to any depth over all heaps; refuted: access maps print in the order of their entries, so equal invocations may print different texts; an OptionWithIOVar prints its place only, so its content is not shown and copies print something else, with the exact condition", "anchors": ["pash_annotations/util_standard.py:standard_repr", "pash_annotations/datatypes/CommandInvocationWithIOVars.py:__repr__", "pash_annotations/annotation_generation/datatypes/parallelizability/Mapper.py:__repr__", "pash_annotations/annotation_generation/datatypes/parallelizability/Aggregator.py:__repr__", "pash_annotations/datatypes/BasicDatatypesWithIOVar.py"]}
{"id": "C85", "title": "Annotations for further commands", "statement": "A generator that makes calls of the helpers never raises and gives exactly the parallelizers of these calls, in their order, and commutativity exactly if it was declared; a command registered newly with it gets this information. For any command, the plans for the concatenating helpers print what the command prints exactly if the command can be run piece by piece; with commutativity declared, exactly if moreover it does not see the order of the lines. The plans of every helper can be run, on several files as well.", "quantifier": "every list of calls, every command and system, every table of commands, every plan, input and cut", "why_tests_cant": "quantifies over all generators still to be written and all programs behind a command; the last part is refuted: the aggregators for adjacent lines are never obtained, and for an invocation that reads several files no mapper is obtained, although this is what the helpers for individual files are for", "anchors": ["pash_annotations/annotation_generation/annotation_generators/ParallelizabilityInfoGenerator_Interface.py", "pash_annotations/annotation_generation/datatypes/parallelizability/Parallelizer.py:__init__", "pash_annotations/annotation_generation/datatypes/parallelizability/MapperSpec.py:MapperSpec.get_mapper", "pash_annotations/annotation_generation/datatypes/ParallelizabilityInfo.py", "docs/adding-annotations.md"]}
{"id": "C86", "title": "Input/output information for further commands", "statement": "A generate_info method that calls the library functions of the interface raises exactly if the invocation has no operand and a function concerns the first or the last one. Otherwise what it says about the operands is what the names of the functions say, in whichever order they are called, exactly if no two calls say different things about an operand; the generators of the repository are like this. After contradicting calls the last one counts, except that the functions for streaming inputs never have an effect. Which combinations of kinds of operands can be declared at all is known exactly.", "quantifier": "every sequence of calls, every invocation and any number of operands, every registered command", "why_tests_cant": "all sequences of calls and numbers of operands; the assumption of the code that nothing is assigned twice is not checked anywhere", "anchors": ["pash_annotations/annotation_generation/annotation_generators/InputOutputInfoGenerator_Interface.py", "pash_annotations/annotation_generation/datatypes/InputOutputInfo.py"]}
{"id": "C87", "title": "Recognising concatenation and other kinds", "statement": "An aggregator obtained from a specification, with or without auxiliary inputs, answers is_aggregator_concatenate as the specification answers is_aggregator_spec_concatenate. What answers True is cat of the given inputs in order without flags, and for every parallelizer of the annotations the converse holds too. Of the six predicates of a specification exactly one holds, each splitter is recognised by its own predicate only, and the round robin splitter is accepted exactly for specifications that are not custom.", "quantifier": "every specification, invocation, list of inputs and output; every annotated invocation and parallelizer", "why_tests_cant": "all specifications and invocations; whether recognition implies the shape of the command is a statement about all of them", "anchors": ["pash_annotations/annotation_generation/datatypes/parallelizability/Aggregator.py:is_aggregator_concatenate", "pash_annotations/datatypes/CommandInvocationWithIOVars.py:is_aggregator_concatenate", "pash_annotations/annotation_generation/datatypes/parallelizability/AggregatorSpec.py", "pash_annotations/annotation_generation/datatypes/parallelizability/Splitter.py"]}
{"id": "C88", "title": "Names of input files", "statement": "A command that is offered the concatenation of the results of its parts prints the same when it is run on the parts, whatever the input file and the files of the parts are called: exactly if it can be run piece by piece and does not print the name of its input. For input that comes through standard input the names play no role. With flags that concern the selection of lines only, grep without -H, or on standard input, is right; grep -H on a file is right exactly if every part with a line to print is called like the file. What a plan of any kind prints does not depend on the name of the whole input, so no plan at all is right for two names of a file if the command prints the name.", "quantifier": "every command and system that sees names, every choice of names, every plan, input and cut", "why_tests_cant": "infinitely many names, inputs and cuts; refuted for grep -H on a file, which is offered the concatenation although its parts print their own names", "anchors": ["pash_annotations/annotation_generation/annotation_generators/ParallelizabilityInfoGeneratorGrep.py:generate_info", "pash_annotations/annotation_generation/datatypes/parallelizability/MapperSpec.py:MapperSpec.get_mapper", "pash_annotations/annotation_generation/datatypes/parallelizability/AggregatorSpec.py:get_aggregator"]}
{"id": "C89", "title": "Joining results with a command line", "statement": "The guide: a parallelizer may join the results of chunks with a command line; wc sums up the results, cat without flags can use the concatenation. For any command and command line the plans print what the command prints exactly if the command line computes the output for a text from the outputs for its parts; no command line will do if these do not determine it, as for uniq -u and uniq -d. For wc, adding up is right exactly without -L; for wc on a file, whose name is printed, no parallelizer is right whatever the file is called, and adding up while keeping the name in the first result is right exactly if the first part is called like the file. For cat, concatenation is right exactly without -n, -b and -s, while the earlier records call cat -b and cat -s stateless.", "quantifier": "every command, command line and system, every kind of input that parts share with the whole, every tree of results, input and cut", "why_tests_cant": "quantifies over all programs two command names may stand for, all inputs and trees; impossibility concerns all command lines; refuted for wc -L and for the class of cat -b and cat -s, with the exact conditions", "anchors": ["docs/adding-annotations.md:66-76", "pash_annotations/annotation_generation/datatypes/parallelizability/AggregatorSpec.py:AggregatorSpecNonFunc.get_aggregator", "pash_annotations/annotation_generation/annotation_generators/ParallelizabilityInfoGenerator_Interface.py:append_to_parallelizer_list_cc_seq_conc", "pash_annotations/old_annotations"]}
{"id": "C90", "title": "What the class stateless promises", "statement": "The README of the earlier annotation language says that stateless commands operate on individual lines without state, so that running them on parts of the input and concatenating the results is right, without caution about where the input is split. For every command with one streaming input, what the helpers for the concatenation add is right for parts cut at newlines exactly if the command treats every line by itself; it is right for parts cut anywhere exactly if it treats every character by itself. The records of the class stateless keep the promise for rev and, without -s, for tr; not for tac, for which joining two results in reverse order is right.", "quantifier": "all commands with one streaming input and all systems, all inputs, all parts, all plans of any depth", "why_tests_cant": "a test runs a command on some inputs cut at some places; whether it is stateless is about all inputs and all cuts", "anchors": ["pash_annotations/old_annotations/README.md", "pash_annotations/old_annotations/tac.json", "pash_annotations/old_annotations/rev.json", "pash_annotations/old_annotations/tr.json", "pash_annotations/annotation_generation/datatypes/ParallelizabilityInfo.py:ParallelizabilityInfo"]}
{"id": "C91", "title": "The same command line in other spellings", "statement": "Options may be bundled or not and written long or short. Two command lines that the GNU command reads in the same way, with the same options, arguments and operands, get the same parallelizers, and their operands and implicit streams are treated in the same way. A generator that asks for an option finds it exactly if the command does.", "quantifier": "every two command strings for the 19 annotated GNU commands", "why_tests_cant": "relates all pairs of lines of any length; holds for the lines that parse reads as the command (C70), except for the long forms of grep -e, -A, -B, -C and -m and for tr -C, which generators never ask for: for each of these two lines that mean the same get different information", "anchors": ["pash_annotations/parser/parser.py:parse", "pash_annotations/annotation_generation/annotation_generators/Generator_Interface.py:does_flag_option_list_contain_at_least_one_of", "pash_annotations/annotation_generation/annotation_generators/ParallelizabilityInfoGeneratorGrep.py:generate_info", "pash_annotations/annotation_generation/annotation_generators/ParallelizabilityInfoGeneratorTr.py", "pash_annotations/parser/command_flag_option_info/data/"]}
{"id": "C92", "title": "The table of reductions", "statement": "The table of the earlier annotation language gives, for cat, tr, nl, rev, join, uniq, wc and sort, a reduction g: the output of the command for a text is g of the outputs for its two parts, wherever the text is cut after a line. Plans that run a command on chunks and combine the results two at a time with g print what the command prints exactly if this is so and chance plays no role.", "quantifier": "every command and system, every reduction that depends on the command line, every tree of combinations, every input and cut; each entry of the table with all flags it can have", "why_tests_cant": "quantifies over all programs behind a command name and all texts; the entries are right for cat, tr, uniq, uniq -c and sort, for tr -s exactly if tr changes no character that it writes, for wc exactly without -L, for nl on texts without delimiters of sections; refuted for rev (its entry is the one of tac), for sort -h and for uniq -d, for which no reduction is right", "anchors": ["pash_annotations/old_annotations/p_stats/mr.md", "pash_annotations/annotation_generation/datatypes/parallelizability/AggregatorKind.py:CUSTOM_2_ARY", "pash_annotations/annotation_generation/datatypes/parallelizability/AggregatorSpec.py:AggregatorSpecNonFunc.get_aggregator"]}
{"id": "C93", "title": "Inferred parallelizers are objects of their own", "statement": "get_inferred_parallelizer_list returns the very list stored in the ParallelizabilityInfo. For a commutative command it has appended one parallelizer per parallelizer with consecutive chunks, in order, equal to it in all attributes but the splitter; an appended parallelizer shares no mutable object with any object there was before nor with another one, so that changing one changes no other. Nothing else changes. Every further call appends equal parallelizers again.", "quantifier": "every heap of Python objects without cycles below the parallelizers, every list of parallelizers, whatever they share; every number of calls; every later program that holds some of the objects", "why_tests_cant": "quantifies over all object graphs, with all patterns of sharing, and over all programs of later users of the objects", "anchors": ["pash_annotations/annotation_generation/datatypes/ParallelizabilityInfo.py:ParallelizabilityInfo.get_inferred_parallelizer_list", "pash_annotations/annotation_generation/datatypes/parallelizability/Parallelizer.py:make_parallelizer_round_robin_with_unwrap_from_other"]}
{"id": "C94", "title": "What an applied invocation shares", "statement": "apply_input_output_info_to_command_invocation changes no object. The invocation it returns consists of new objects except, exactly, for the flags of the given invocation, the accesses in the typers it has used and the implicit resources of the information; whatever is done with the result leaves all other objects as they are, and two results have only such objects in common. Operands of one result are not independent: after the constructor they all have one access, and who has one operand can change the access of all of them, in this result and in those of later calls.", "quantifier": "every heap of objects, every information and invocation on it, with any sharing; every exception; every later program that holds the result", "why_tests_cant": "quantifies over all object graphs and over all programs of later users; a test compares values, in which shared objects do not show", "anchors": ["pash_annotations/annotation_generation/datatypes/InputOutputInfo.py:InputOutputInfo.__init__", "pash_annotations/annotation_generation/datatypes/InputOutputInfo.py:InputOutputInfo.apply_input_output_info_to_command_invocation", "pash_annotations/annotation_generation/datatypes/InputOutputInfo.py:InputOutputInfo.apply_typer_to_arg", "pash_annotations/annotation_generation/datatypes/InputOutputInfo.py:InputOutputInfo.apply_typer_to_flagoption", "pash_annotations/datatypes/BasicDatatypesWithIO.py:get_from_original_filename_with_ioinfo"]}
{"id": "C95", "title": "Which operands share an access", "statement": "A generator makes its result of new objects, but for the flags of the invocation and the accesses in the typers of its options: it changes no object there was, and the results of two generators, for one invocation or for two, have nothing else in common. Among the operands of one result, two resources have one access object between them exactly when one call of a helper was the last one about both of them, or no call was about either. Whoever holds one operand can then change the access of the other, and otherwise cannot; whatever calls a generator makes, it cannot give the operands between the first and the last accesses of their own.", "quantifier": "every heap of objects, every invocation and list of typers on it, every sequence of helper calls, every exception, every pair of operands, every later program that holds one of them", "why_tests_cant": "quantifies over all sequences of calls, all invocations and all later programs; sharing does not show in the values a test compares", "anchors": ["pash_annotations/annotation_generation/annotation_generators/InputOutputInfoGenerator_Interface.py:InputOutputInfoGeneratorInterface.__init__", "pash_annotations/annotation_generation/annotation_generators/InputOutputInfoGenerator_Interface.py:InputOutputInfoGeneratorInterface.get_cmd_inv_with_io", "pash_annotations/annotation_generation/datatypes/InputOutputInfo.py:InputOutputInfo.set_all_operands_as_config_arg_type_string", "pash_annotations/annotation_generation/datatypes/InputOutputInfo.py:InputOutputInfo.all_but_first_operand_is_other_input", "pash_annotations/annotation_generation/datatypes/InputOutputInfo.py:InputOutputInfo.set_implicit_use_of_stdin"]}
{"id": "C96", "title": "Which options share an access", "statement": "A generator, from its construction on, makes its result of new objects, but for the flags of the invocation, which are in the result themselves: it changes no object there was, and the results of two generators, for one invocation or for two, have flags in common and nothing else. Two options of one result whose arguments are resources have one access object between them exactly when they have the same name; whoever holds one of them can then change the access of the other, and otherwise cannot. An option never shares its access with an operand.", "quantifier": "every directory of data files, every heap of objects, every invocation on it, every sequence of helper calls, every exception, every pair of options, every later program that holds one of them", "why_tests_cant": "quantifies over all data files, invocations with options repeated any number of times and all later programs; sharing does not show in the values a test compares", "anchors": ["pash_annotations/annotation_generation/annotation_generators/InputOutputInfoGenerator_Interface.py:InputOutputInfoGeneratorInterface.__init__", "pash_annotations/annotation_generation/annotation_generators/InputOutputInfoGenerator_Interface.py:InputOutputInfoGeneratorInterface.get_flagoption_list_typer_for_specific_list", "pash_annotations/annotation_generation/annotation_generators/InputOutputInfoGenerator_Interface.py:InputOutputInfoGeneratorInterface.get_dict_option_to_class_for_arg", "pash_annotations/datatypes/AccessKind.py:get_access_from_string", "pash_annotations/annotation_generation/datatypes/InputOutputInfo.py:InputOutputInfo.apply_typer_to_flagoption"]}
{"id": "C97", "title": "Annotated invocations and what their operands share", "statement": "get_input_output_info_from_cmd_invocation never raises and changes no object; it returns None, also after an exception in the middle of a generator, or new objects with the information. Applied to the invocation it gives a result of new objects, but for the flags of the invocation; two annotations, of one invocation or of two, have flags in common and nothing else. For every annotated command two resources among the operands have one access object between them exactly when their accesses are equal: whoever holds one operand can then give the other any access, and otherwise cannot change it.", "quantifier": "every directory of data files, every heap of objects, every invocation on it of any command, every exception, every pair of operands, every later program that holds one of them", "why_tests_cant": "quantifies over all invocations of all annotated commands, with any number of operands, and all later programs; sharing does not show in the values a test compares", "anchors": ["pash_annotations/annotation_generation/AnnotationGeneration.py:get_input_output_info_from_cmd_invocation", "pash_annotations/annotation_generation/datatypes/InputOutputInfo.py:InputOutputInfo.apply_input_output_info_to_command_invocation", "pash_annotations/annotation_generation/annotation_generators/InputOutputInfoGeneratorMv.py:generate_info", "pash_annotations/annotation_generation/annotation_generators/InputOutputInfoGenerator_Interface.py:InputOutputInfoGeneratorInterface.__init__"]}
{"id": "C98", "title": "Generated parallelizers are objects of their own", "statement": "A generate_info method that calls helpers of the interface for parallelizability information returns new objects: an information with a list of its own, whose parallelizers have the splitters, mapper and aggregator specs that the calls ask for, in their order. It changes no object there was. No two parallelizers of the list share an object, not even the default mapper and aggregator specs, also when get_inferred_parallelizer_list has added to the list; whoever is given one of them can change neither another one nor the list nor the information. The informations of two generators share nothing.", "quantifier": "every heap of Python objects, every sequence of helper calls of any length (but append_to_parallelizer_list with a parallelizer that the method has made itself), every later program that holds one parallelizer", "why_tests_cant": "a default that is made once and shared shows only in programs that change it; the property is about all programs and all sequences of calls", "anchors": ["pash_annotations/annotation_generation/annotation_generators/ParallelizabilityInfoGenerator_Interface.py:16-82", "pash_annotations/annotation_generation/datatypes/ParallelizabilityInfo.py:10-28", "pash_annotations/annotation_generation/datatypes/parallelizability/Parallelizer.py:31-50", "pash_annotations/annotation_generation/datatypes/parallelizability/Parallelizer.py:105-135", "pash_annotations/annotation_generation/datatypes/parallelizability/MapperSpec.py:26-46", "pash_annotations/annotation_generation/datatypes/parallelizability/MapperSpec.py:101-105", "pash_annotations/annotation_generation/datatypes/parallelizability/AggregatorSpec.py:100-123", "pash_annotations/annotation_generation/datatypes/parallelizability/AggregatorSpec.py:157-158"]}
{"id": "C99", "title": "What the parallelizers of uniq and of grep share", "statement": "The generators for uniq and grep use one aggregator spec, or one mapper spec, for two parallelizers. The generator for uniq returns new objects with the parallelizers it should have and changes no object. Two of the parallelizers share an object exactly if -c is given without -d, -D and --all-repeated, and the one object they share is the aggregator spec: whoever is given one parallelizer of uniq -c can then have all parts of the other reported as implemented, which they were not. The parallelizers of grep never share an object, as those with specs of their own are not implemented and left out.", "quantifier": "every heap of Python objects, every invocation, every pair of parallelizers of the list", "why_tests_cant": "sharing shows only in programs that change a parallelizer; the exact condition is about all invocations and all objects reached", "anchors": ["pash_annotations/annotation_generation/annotation_generators/ParallelizabilityInfoGeneratorUniq.py:21-34", "pash_annotations/annotation_generation/annotation_generators/ParallelizabilityInfoGeneratorGrep.py:25-71", "pash_annotations/annotation_generation/datatypes/parallelizability/Parallelizer.py:102-103", "pash_annotations/annotation_generation/datatypes/parallelizability/AggregatorSpec.py:118-123"]}
