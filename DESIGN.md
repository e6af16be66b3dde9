# Formal model of binpash/annotations in Rocq

The model is a hand-written shallow embedding of the Python code in `/repo`.
Nothing from `/repo` is executed. Each Coq definition of the model carries a
comment that cites the file and lines it models.

## Conventions

* A Python `str` is a Coq `string` (code points up to 255). No branch of the
  modelled code distinguishes larger code points.
* Exceptions are values: `result A := Ok a | Raise e`. Methods that mutate an
  object before they raise return the mutated object together with the outcome.
* A Python `set` is a list used only through membership. A `dict` is an
  association list in which the latest write wins. The access map of an
  invocation is a function `Z -> option access`, compared pointwise.
* `model` files hold definitions only, `*Facts` files hold proofs, `Spec*` files
  hold the specifications the theorems are read against, and `P_*` files hold the
  theorems, each closed by `exact`, each followed by `Print Assumptions` and a
  concrete case that meets its hypotheses.
* A property that the code violates is kept as stated. The violation is a
  theorem with suffix `_refuted`, the part that does hold has suffix `_partial`
  or states the exact side condition.

## Plan per property

| Property | Modelled | How proved |
|---|---|---|
| C01 | `shlex.split` automaton, `shlex.quote` | induction over words and characters |
| C02 | `parse`, data-file lookup as a parameter | case analysis, with a declarative grammar of unfinished input |
| C03, C04 | `parse` loop | declarative segmentation relation, sound, complete and deterministic |
| C05 | synonym dictionaries | induction over the word list, for well-formed data |
| C06 | bundles | equivalence with separated words for primary letters; refuted otherwise |
| C07, C08, C10 | `parse` | induction |
| C09 | `parse` and quoting | round trip under a side condition; refuted without it |
| C11 | `parse` | refuted by a witness, plus the general behaviour |
| C12 | shipped JSON data, generated literally by a script | lifted decision procedure over the finite data, plus a general lemma for arbitrary words |
| C13, C14, C17, C18 | IO information, its application, accessors | induction over operand and flag lists |
| C15 | option classification | general lemma plus lifted check over the shipped data |
| C16, C19-C24 | all IO generators | a table-free specification by position, proved per command |
| C25 | all parallelizability generators | specification table, proved per command |
| C26-C28 | parallelizer constructors, inferred list | invariants, closed form for n calls |
| C29 | mapper and aggregator specs | case analysis |
| C30, C31 | transformers | induction over nested transformers |
| C32, C33 | grep and tr generators | refuted, with exact characterisation |
| C34-C42 | invocations with io variables as a state and error monad | simulation against simultaneous renaming, invariants over histories |
| C43-C47 | mappers and aggregators | from the renaming lemmas |
| C48 | object heap with references and `deepcopy` (Heap.v) | frame argument for arbitrary heaps, refinement of the model of values |
| C49 | CLI save logic over an abstract file system | refuted, with exact behaviour |
| C50, C51, C58-C63, C68, C69 | what sort, grep, cut, tr, cat (SpecSem.v), sed and xargs (SpecSem2.v; xargs with quotes and more options in SpecSem7.v, sed with most of its commands in SpecSem8.v, with one command at some address in SpecSem12.v, xargs that stops early in SpecSem13.v), uniq and the aggregators for adjacent lines (SpecSem3.v), bigrams with auxiliary results (SpecSem4.v) do, when grep and sort are safe (SpecSem5.v), any command with concatenation and alt_bigrams_aux (SpecSem6.v), how plans are run (own specification) | induction over plans; sortedness and uniqueness of sorted permutations for sort, homomorphism at line ends for the others |
| C52, C53 | small helpers | induction |
| C54 | `parse_args` and the regular expressions of the scraper (ArgsToJson.v) | refuted, with exact characterisation |
| C64 | `format_arg_chars` over code points (ArgChars.v); a reader of POSIX shell words with parameters (SpecShellWord.v) | nested induction over entries, read back by the model of `shlex` and by the POSIX reader; exactness by counting backslashes |
| C65 | `==` over the heap of C48 (HeapEq.v), recursion bounded by a depth that is proved irrelevant | agreement with an inductive equality, well-founded on acyclic heaps; copies by the isomorphism of C48 |
| C66, C67 | accessors by access, `Inputs`, `CommandProperties`, `make_arg_simple` (Small.v) | induction over operands and histories |
| C70 | `parse` and the shipped data against getopt_long and the manuals (own specification, SpecGetopt.v) | induction over readings, with a lifted check over the finite tables |
| C71 | input/output information of parsed lines against the effects named in the manuals (SpecEffects.v) | the reading of C70, the shapes of C19-C24 and a lifted check of option names; exact condition per command |
| C72 | the texts of everything in a report (Text.v) | prefix-free codes, nested induction over transformers; where words come from through lexer, parser and generators |
| C73 | parse, input/output information and invocations with variables together; the step from one to the other is a relation (SpecEnd.v) | variables with an access counted over the places they stand at; finite check of the options in the shipped data; C19-C24 per command; C50, C51, C58-C61 on the result |
| C74 | the table of commands, the import loop and the look-up of classes (Registry.v), over any state of the generator modules; config/definitions.py; the data directory | the loop defines exactly the classes of the modules that load; equality of answers from this characterisation; finite check of the two tables |
| C55-C57 | accessors of IO information, command line tool, specification objects | case analysis, induction over histories |
| C75 | two runs of the generators (IOGen.v, ParaGen.v) compared | case analysis on the command; the generators test for names only by counting |
| C76 | get_actual_mapper and get_aggregator for each stage; running pipelines in sequence, stage by stage and side by side is specified in SpecPipe.v on top of SpecSem.v | induction over the stages: at each stage the results for the parts are a cut at ends of lines of the result for the whole |
| C77 | The seed of a behaviour stands for chance; xargs as the set of its possible outputs (SpecSem9.v) | induction over plans with the seeds at the leaves; schedules compose; enumeration of all schedules for the converse (SemProps9.v, P_Sem9.v) |
| C78 | any function of two adjacent lines, with or without their newlines; tr as in C58, uniq with -c, -d, -u (SpecSem10.v) | what was squeezed is squeezed again at the seam only; blocks of two pieces join at the seam; numbers read back from their text; impossibility by two pieces on which every function fails |
| C79 | the case analysis of the grep generator, also without its check; functions of two results and the offsets of the splitter as specifications (SpecSem11.v) | induction on plans and on lists of lines; distinguishing greps for the converses |
| C80 | json.loads and json.dumps of Python (Json.v) against the grammar of RFC 8259 (SpecJson.v), the verbatim texts of the shipped files (ShippedText.v), manpage-to-json.sh | soundness by induction on the recursion, completeness by mutual induction on the grammar; shipped texts by computation |
| C81 | OldText.v: verbatim texts of all 85 records; SpecOld.v: reading them (with json.loads of C80) and evaluating predicates | table of all records by computation, general lemmas on first matching cases, against the table of C25 and C51 |
| C82 | SpecOldIO.v: places, hyphens and streams of the records | table of all records by computation, cases of the predicates, against the exact information of C19 to C24 |
| C83 | Argparse.v: argparse as used by annotation_cli.py (classification of words, abbreviations, joined arguments, bundled -h, --, values) | one view of every word (seen_word), induction on the list of words |
| C84 | HeapText.v: str and repr on the heap (standard_repr, lists, dicts, members of Enum, places) | inductive specification of the text, induction on groundedness; texts are prefix codes, numbers end before a character that is no digit |
| C85 | All helpers of ParallelizabilityInfoGenerator_Interface.py, including the two no generator uses (GenHelpers.v) | Induction over the calls; C74 for registration; C68 for the concatenation; the unwrapped copies by normalising the pieces to whole lines and joining them in the order of the plan; C29 and C43 for what cannot be obtained |
| C86 | All library functions of InputOutputInfoGenerator_Interface.py, including those no generator uses (IOHelpers.v) | C55 for one call, induction over the calls; the classes of first, middle and last operand as a finite system closed under all calls; C74 for registration |
| C87 | Kinds.v: predicates of Splitter.py, AggregatorSpec.py, Aggregator.py, CommandInvocationWithIOVars.py | case analysis over MapperAgg.v; the name of a command is kept by every traversal (IOVars.v) |
| C88 | SpecNames.v: commands that see the names of their files, grep -H (own specification) on top of MapperAgg.v, ParaGen.v | the mapper reads its part at the place of the file; induction over plans; lines with prefixes are compared one by one; for plans of every kind (SpecNames2.v, P_Names2.v): the whole input is no operand of a mapper or an aggregator |
| C89 | SpecCustom.v, SpecNames2.v (wc on a file): parallelizers with a command line for joining, wc and cat after their manuals (own specification) on top of MapperAgg.v, ParaGen.v; the earlier records (SpecOld.v) | induction over plans; plans with one node for the converse; columns of wc are additive at ends of lines; two cuts with equal results and different wholes for uniq |
| C90 | the concatenation of results for any command, cut at newlines or anywhere; records for tac, rev, tr (SpecStateless.v) | piecewise functions are maps over lines or characters; plans by induction; records read as in C54 |
| C91 | parse on shipped data, option tables of the manuals (SpecGetopt), questions the generators ask (SpecDepends); other_names | C70_same_iff gives pairwise related option lists; a finite check over the manuals shows that a reported name the generators ask for is unique in its group; dependence theorem C75; witnesses for each other name |
| C92 | the entries of p_stats/mr.md as functions of two outputs (SpecTable.v); the commands as in C58, C62, C78, C89 and C90, nl on lists of numbered lines, join as a merge of two files (SpecJoin.v) | C92_plans_iff: induction over plans, and plans of one and two parts for the converse; the entries by the lemmas for squeezing, blocks of equal lines, columns and merging; nl by induction over lines; join by equality with nested loops, induction over its runs |
| C93 | HeapInfer.v: get_inferred_parallelizer_list and make_parallelizer_round_robin_with_unwrap_from_other on the heap of C48 | invariant of the loop over the growing list (InferFacts.v): frame, isomorphism of the copy, disjoint regions; C93_independent: clients confined to what they reach; C93_kinds: agreement with the model of values of C27 |
| C94 | HeapApply.v: the constructor of InputOutputInfo and apply_input_output_info_to_command_invocation on the heap of C48; typers are cells | ApplyFacts.v: simulation of the model of values of IOInfo.v that carries, for every value made, the set of older objects it reaches; C94_client by the confinement of clients |
| C95 | HeapIOHelpers.v: the constructor of a generator, the helpers of the interface and get_cmd_inv_with_io on the heap of C48, any sequence of helper calls | ShareFacts.v: an invariant of the information object kept by every call, which ties equality of its typers to the calls made (SpecShare.v); P_Share.v combines it with C94 |
| C96 | the constructor of the generators with the typers of flags and options as objects (HeapTypers.v): the dictionary has one typer and one access for each entry of the data, the list of typers refers to the typer of a name once for each use | the objects made for two entries are apart (head below, tail above the length of the heap between them), so typers are equal or apart according to the name; with C95 for the rest of the run; clients are confined to what they reach |
| C97 | HeapGenerators.v: the generate_info methods as programs with tests of the invocation and helper calls, the table of classes, get_input_output_info_from_cmd_invocation with its except clause, all on the heap of objects | the methods refine IOGen.v (case analysis per class); by induction on a method its run is one of its sequences of calls, so that C95 and C96 apply; equal accesses imply one call because every kind is given by one call in every sequence |
| C98 | the helpers of the generators of parallelizability information and the constructors they use, as programs on a heap of objects (HeapPara.v) | invariant over the sequence of calls: every call adds a block of new objects whose references stay inside the block and changes only the list (HeapParaFacts.v); with C93 for the inferred parallelizers |
| C99 | HeapUniq.v, HeapGrep.v: generate_info of uniq and of grep as programs on a heap of objects | for -c the heap after the call is computed, for every heap before it, and the objects reached from the two parallelizers are found by a closed set; the other cases are sequences of helper calls and follow from C98's invariant; C99_independent_refuted gives the client; for grep, the specs that are made and not used are a block of new objects that no parallelizer reaches |

## Not modelled

* The program `man`, from whose output the scraper starts. JSON texts with characters above code point 255 and
  nesting so deep that Python raises RecursionError (C80).
* String rendering (`__repr__`, `to_string`) except where a property names it (C72: Text.v has the
  texts of everything in a report; C84: HeapText.v has the texts of invocations with io variables, mappers
  and aggregators, where the place of an object, `hex(id(x))`, is a parameter).
* The `generate_info` methods for parallelizability of AltBigramsAux, BigramsAux, CustomSort, Sort, TestOne and
  TestTwo as programs on objects (C98, C99); the values they compute are modelled in ParaGen.v.
* Real file access, `pkgutil`, `importlib`: the lookup of a data
  file is a parameter, and the shipped files are a generated table, which C80 proves to be what
  `json.loads` makes of the verbatim texts.
* The texts that `argparse` prints (help, error messages); versions of CPython after 3.11, which treat words with two dashes differently. The rendering of the report is a parameter in C49 and C56 and modelled in Text.v for C72.
* The behaviour of the Unix commands themselves. The repository only makes
  statements about them. C50, C51, C58-C63, C68, C69, C73, C76-C79, C89, C90 and C92 are read against SpecSem.v, SpecSem2.v, SpecSem3.v,
  SpecSem4.v, SpecSem5.v, SpecSem6.v, SpecSem7.v, SpecSem8.v, SpecSem9.v, SpecSem10.v, SpecSem11.v, SpecSem12.v, SpecSem13.v, SpecPipe.v, SpecCustom.v, SpecStateless.v, SpecTable.v, SpecJoin.v, SpecNames2.v and SpecSize.v, which specify what sort, grep, cut, tr, cat, wc, sed, xargs, uniq, bigrams_aux, tac, rev, nl and join print. What depends on locale,
  regular expressions or sets is a parameter (an oracle) there. The names of
  input files are not visible to commands there (so grep -H is excluded; SpecNames.v and C88
  treat commands that see names), and only
  data streams are compared, not exit statuses or messages. C70 is read against SpecGetopt.v,
  which transcribes the option tables of the GNU manuals and the conventions of getopt_long, and C71 against
  SpecEffects.v, which lists the files each command reads and writes according to its manual.

## Trusted base

* Coq 8.16.1's kernel, including `vm_compute`.
* The assumptions printed by `Print Assumptions` under each theorem: "Closed
  under the global context" for all of them, so no axiom is used.
* The correspondence between the model and the Python code, argued by the
  citations in the comments. Conformance.v, generated by `tools/gen_tests.py`, adds evidence: the
  assertions of all 43 unit tests of the repository hold of the model. These are tests, not theorems.
* The scripts that copy the texts of the data files into ShippedText.v and OldText.v (doubling quotation marks).
  The script that writes the tables of ShippedData.v is not trusted: C80_shipped.

## Wrong programs

`tools/mutate.py` applies the edits listed in `seeded/mutants*.json` to a scratch
copy of the model, rebuilds the files that depend on the edit and records which
files fail. `seeded/LOG.jsonl` has one line per edit.
