(** * The shipped command data
    GENERATED by tools/gen_data.py from pash_annotations/parser/command_flag_option_info/data/*.json; do not edit. *)
Require Import Verif.PyBase Verif.JsonData.

(** pash_annotations/parser/command_flag_option_info/data/_default_data_for_commands.json *)
Definition data_default_data_for_commands : json_data := mkJson
  []
  [].

(** pash_annotations/parser/command_flag_option_info/data/awk.json *)
Definition data_awk : json_data := mkJson
  [FEList ["-F"; "--field-separator"];
   FEList ["-b"; "--characters-as-bytes"];
   FEList ["-c"; "--traditional"];
   FEList ["-C"; "--copyright"];
   FEList ["-d"; "--dump-variables"];
   FEList ["-D"; "--debug"];
   FEList ["-e"; "--source"];
   FEList ["-E"; "--exec"];
   FEList ["-g"; "--gen-pot"];
   FEList ["-h"; "--help"];
   FEList ["-i"; "--include"];
   FEList ["-l"; "--load"];
   FEList ["-L"; "--lint"];
   FEList ["-M"; "--bignum"];
   FEList ["-n"; "--non-decimal-data"];
   FEList ["-N"; "--use-lc-numeric"];
   FEList ["-ofile"; "--pretty-print"];
   FEList ["-O"; "--optimize"];
   FEList ["-p"; "--profile"];
   FEList ["-P"; "--posix"];
   FEList ["-r"; "--re-interval"];
   FEList ["-S"; "--sandbox"];
   FEList ["-t"; "--lint-old"];
   FEList ["-V"; "--version"]]
  [mkOE ["-f"; "--file"] (OAList ["FILE"; "CONFIG_INPUT"])].

(** pash_annotations/parser/command_flag_option_info/data/cat.json *)
Definition data_cat : json_data := mkJson
  [FEList ["-A"; "--show-all"];
   FEList ["-b"; "--number-nonblank"];
   FEList ["-e"; "-vE"];
   FEList ["-E"; "--show-ends"];
   FEList ["-n"; "--number"];
   FEList ["-s"; "--squeeze-blank"];
   FEList ["-t"; "-vT"];
   FEList ["-T"; "--show-tabs"];
   FEList ["-u"];
   FEList ["-v"; "--show-nonprinting"];
   FEList ["--help"];
   FEList ["--version"]]
  [].

(** pash_annotations/parser/command_flag_option_info/data/col.json *)
Definition data_col : json_data := mkJson
  [FEList ["-b"; "--no-backspaces"];
   FEList ["-f"; "--fine"];
   FEList ["-h"; "--tabs"];
   FEList ["-l"; "--lines"];
   FEList ["-p"; "--pass"];
   FEList ["-x"; "--spaces"];
   FEList ["-V"; "--version"];
   FEList ["-H"; "--help"]]
  [].

(** pash_annotations/parser/command_flag_option_info/data/comm.json *)
Definition data_comm : json_data := mkJson
  [FEList ["-1"];
   FEList ["-2"];
   FEList ["-3"];
   FEList ["--check-order"];
   FEList ["--nocheck-order"];
   FEList ["--total"];
   FEList ["-z"; "--zero-terminated"];
   FEList ["--help"];
   FEList ["--version"]]
  [mkOE ["--output-delimiter"] (OAStr "STR")].

(** pash_annotations/parser/command_flag_option_info/data/custom_sort.json *)
Definition data_custom_sort : json_data := mkJson
  []
  [].

(** pash_annotations/parser/command_flag_option_info/data/custom_tr.json *)
Definition data_custom_tr : json_data := mkJson
  []
  [].

(** pash_annotations/parser/command_flag_option_info/data/cut.json *)
Definition data_cut : json_data := mkJson
  [FEList ["-n"];
   FEList ["--complement"];
   FEList ["-s"; "--only-delimited"];
   FEList ["-z"; "--zero-terminated"];
   FEList ["--help"];
   FEList ["--version"];
   FEList ["-M"]]
  [mkOE ["-b"; "--bytes"] (OAStr "LIST");
   mkOE ["-c"; "--characters"] (OAStr "LIST");
   mkOE ["-d"; "--delimiter"] (OAStr "DELIM");
   mkOE ["-f"; "--fields"] (OAStr "LIST");
   mkOE ["--output-delimiter"] (OAStr "STRING")].

(** pash_annotations/parser/command_flag_option_info/data/diff.json *)
Definition data_diff : json_data := mkJson
  [FEList ["--normal"];
   FEList ["-q"; "--brief"];
   FEList ["-s"; "--report-identical-files"];
   FEList ["-e"; "--ed"];
   FEList ["-n"; "--rcs"];
   FEList ["-y"; "--side-by-side"];
   FEList ["--left-column"];
   FEList ["--suppress-common-lines"];
   FEList ["-p"; "--show-c-function"];
   FEList ["-t"; "--expand-tabs"];
   FEList ["-T"; "--initial-tab"];
   FEList ["--suppress-blank-empty"];
   FEList ["-l"; "--paginate"];
   FEList ["-r"; "--recursive"];
   FEList ["--no-dereference"];
   FEList ["-N"; "--new-file"];
   FEList ["--unidirectional-new-file"];
   FEList ["--ignore-file-name-case"];
   FEList ["--no-ignore-file-name-case"];
   FEList ["-i"; "--ignore-case"];
   FEList ["-E"; "--ignore-tab-expansion"];
   FEList ["-Z"; "--ignore-trailing-space"];
   FEList ["-b"; "--ignore-space-change"];
   FEList ["-w"; "--ignore-all-space"];
   FEList ["-B"; "--ignore-blank-lines"];
   FEList ["-a"; "--text"];
   FEList ["--strip-trailing-cr"];
   FEList ["-d"; "--minimal"];
   FEList ["--speed-large-files"];
   FEList ["--help"];
   FEList ["-v"; "--version"]]
  [mkOE ["-c"; "-C"; "--context"] (OAStr "NUM");
   mkOE ["-u"; "-U"; "--unified"] (OAStr "NUM");
   mkOE ["-W"; "--width"] (OAStr "NUM");
   mkOE ["-F"; "--show-function-line"] (OAStr "RE");
   mkOE ["--label"] (OAStr "LABEL");
   mkOE ["--tabsize"] (OAStr "NUM");
   mkOE ["-x"; "--exclude"] (OAStr "PAT");
   mkOE ["--exclude-from"; "-X"] (OAList ["FILE"; "EXCLUDES_FROM_INPUT"]);
   mkOE ["-S"; "--starting-file"] (OAList ["FILE"; "OTHER_INPUT"]);
   mkOE ["--from-file"] (OAList ["FILE"; "STREAM_INPUT"]);
   mkOE ["--to-file"] (OAList ["FILE"; "STREAM_INPUT"]);
   mkOE ["-I"; "--ignore-matching-lines"] (OAStr "RE");
   mkOE ["-D"; "--ifdef"] (OAStr "NAME");
   mkOE ["--line-format"] (OAStr "LFMT");
   mkOE ["--horizon-lines"] (OAStr "NUM");
   mkOE ["--color"] (OAStr "WHEN");
   mkOE ["--palette"] (OAStr "PALETTE")].

(** pash_annotations/parser/command_flag_option_info/data/export.json *)
Definition data_export : json_data := mkJson
  [FEList ["-f"];
   FEList ["-n"];
   FEList ["-p"]]
  [].

(** pash_annotations/parser/command_flag_option_info/data/grep.json *)
Definition data_grep : json_data := mkJson
  [FEList ["--help"];
   FEList ["-V"; "--version"];
   FEList ["-E"; "--extended-regexp"];
   FEList ["-F"; "--fixed-strings"];
   FEList ["-G"; "--basic-regexp"];
   FEList ["-P"; "--perl-regexp"];
   FEList ["-i"; "-y"; "--ignore-case"];
   FEList ["--no-ignore-case"];
   FEList ["-v"; "--invert-match"];
   FEList ["-w"; "--word-regexp"];
   FEList ["-x"; "--line-regexp"];
   FEList ["-c"; "--count"];
   FEList ["-L"; "--files-without-match"];
   FEList ["-l"; "--files-with-matches"];
   FEList ["-o"; "--only-matching"];
   FEList ["-q"; "--quiet"; "--silent"];
   FEList ["-s"; "--no-messages"];
   FEList ["-b"; "--byte-offset"];
   FEList ["-H"; "--with-filename"];
   FEList ["-h"; "--no-filename"];
   FEList ["-n"; "--line-number"];
   FEList ["-T"; "--initial-tab"];
   FEList ["-u"; "--unix-byte-offsets"];
   FEList ["-Z"; "--null"];
   FEList ["--no-group-separator"];
   FEList ["-a"; "--text"];
   FEList ["-I"];
   FEList ["-r"; "--recursive"];
   FEList ["-R"; "--dereference-recursive"];
   FEList ["--line-buffered"];
   FEList ["-U"; "--binary"];
   FEList ["-z"; "--null-data"]]
  [mkOE ["-e"] (OAStr "PATTERNS");
   mkOE ["--regexp"] (OAStr "PATTERNS");
   mkOE ["-f"; "--file"] (OAList ["FILE"; "CONFIG_INPUT"]);
   mkOE ["--color"] (OAStr "WHEN");
   mkOE ["--colour"] (OAStr "WHEN");
   mkOE ["-m"] (OAStr "NUM");
   mkOE ["--max-count"] (OAStr "NUM");
   mkOE ["--label"] (OAStr "LABEL");
   mkOE ["-A"] (OAStr "NUM");
   mkOE ["--after-context"] (OAStr "NUM");
   mkOE ["-B"] (OAStr "NUM");
   mkOE ["--before-context"] (OAStr "NUM");
   mkOE ["-C"] (OAStr "NUM");
   mkOE ["--context"] (OAStr "NUM");
   mkOE ["--group-separator"] (OAStr "SEP");
   mkOE ["--binary-files"] (OAStr "TYPE");
   mkOE ["-D"] (OAStr "ACTION");
   mkOE ["--devices"] (OAStr "ACTION");
   mkOE ["-d"] (OAStr "ACTION");
   mkOE ["--directories"] (OAStr "ACTION");
   mkOE ["--exclude"] (OAStr "GLOB");
   mkOE ["--exclude-from"] (OAList ["FILE"; "EXCLUDES_FROM_INPUT"]);
   mkOE ["--exclude-dir"] (OAStr "GLOB");
   mkOE ["--include"] (OAStr "GLOB")].

(** pash_annotations/parser/command_flag_option_info/data/head.json *)
Definition data_head : json_data := mkJson
  [FEList ["-q"; "--quiet"; "--silent"];
   FEList ["-v"; "--verbose"];
   FEList ["-z"; "--zero-terminated"];
   FEList ["--help"];
   FEList ["--version"]]
  [mkOE ["-n"; "--lines"] (OAStr "NUM");
   mkOE ["-c"; "--bytes"] (OAStr "NUM")].

(** pash_annotations/parser/command_flag_option_info/data/mkfifo.json *)
Definition data_mkfifo : json_data := mkJson
  [FEList ["-m"];
   FEList ["-Z"];
   FEList ["--help"];
   FEList ["--version"]]
  [mkOE ["--mode"] (OAStr "MODE");
   mkOE ["--context"] (OAStr "CTX")].

(** pash_annotations/parser/command_flag_option_info/data/mv.json *)
Definition data_mv : json_data := mkJson
  [FEList ["-b"; "--backup"];
   FEList ["-f"; "--force"];
   FEList ["-i"; "--interactive"];
   FEList ["-n"; "--no-clobber"];
   FEList ["--strip-trailing-slashes"];
   FEList ["-T"; "--no-target-directory"];
   FEList ["-u"; "--update"];
   FEList ["-v"; "--verbose"];
   FEList ["-Z"; "--context"];
   FEList ["--help"];
   FEList ["--version"]]
  [mkOE ["--backup"] (OAStr "CONTROL");
   mkOE ["-S"; "--suffix"] (OAStr "SUFFIX");
   mkOE ["-t"; "--target-directory"] (OAList ["DIRECTORY"; "OTHER_OUTPUT"])].

(** pash_annotations/parser/command_flag_option_info/data/rm.json *)
Definition data_rm : json_data := mkJson
  [FEList ["-f"; "--force"];
   FEList ["-i"];
   FEList ["-I"];
   FEList ["--one-file-system"];
   FEList ["--no-preserve-root"];
   FEList ["-r"; "-R"; "--recursive"];
   FEList ["-d"; "--dir"];
   FEList ["-v"; "--verbose"];
   FEList ["--help"];
   FEList ["--version"]]
  [mkOE ["--interactive"] (OAStr "WHEN");
   mkOE ["--preserve-root"] (OAStr "all")].

(** pash_annotations/parser/command_flag_option_info/data/sed.json *)
Definition data_sed : json_data := mkJson
  [FEList ["-n"; "--quiet"; "--silent"];
   FEList ["--debug"];
   FEList ["-e"; "--expression"];
   FEList ["-f"; "--file"];
   FEList ["--follow-symlinks"];
   FEList ["--posix"];
   FEList ["-E"; "-r"; "--regexp-extended"];
   FEList ["-s"; "--separate"];
   FEList ["--sandbox"];
   FEList ["-u"; "--unbuffered"];
   FEList ["-z"; "--null-data"];
   FEList ["--help"];
   FEList ["--version"]]
  [mkOE ["--in-place"] (OAStr "SUFFIX");
   mkOE ["-l"] (OAStr "N");
   mkOE ["--line-length"] (OAStr "N")].

(** pash_annotations/parser/command_flag_option_info/data/seq.json *)
Definition data_seq : json_data := mkJson
  [FEList ["-w"; "--equal-width"];
   FEList ["--help"];
   FEList ["--version"]]
  [mkOE ["-f"; "--format"] (OAStr "FORMAT");
   mkOE ["-s"; "--separator"] (OAStr "STRING")].

(** pash_annotations/parser/command_flag_option_info/data/sort.json *)
Definition data_sort : json_data := mkJson
  [FEList ["-b"; "--ignore-leading-blanks"];
   FEList ["-d"; "--dictionary-order"];
   FEList ["-f"; "--ignore-case"];
   FEList ["-g"; "--general-numeric-sort"];
   FEList ["-i"; "--ignore-nonprinting"];
   FEList ["-M"; "--month-sort"];
   FEList ["-h"; "--human-numeric-sort"];
   FEList ["-n"; "--numeric-sort"];
   FEList ["-R"; "--random-sort"];
   FEList ["-r"; "--reverse"];
   FEList ["-V"; "--version-sort"];
   FEList ["-c"; "--check"];
   FEList ["-C"];
   FEList ["--debug"];
   FEList ["-m"; "--merge"];
   FEList ["-s"; "--stable"];
   FEList ["-u"; "--unique"];
   FEList ["-z"; "--zero-terminated"];
   FEList ["--help"];
   FEList ["--version"]]
  [mkOE ["--random-source"] (OAList ["FILE"; "CONFIG_INPUT"]);
   mkOE ["--sort"] (OAStr "WORD");
   mkOE ["--batch-size"] (OAStr "NMERGE");
   mkOE ["--compress-program"] (OAStr "PROG");
   mkOE ["--files0-from"] (OAList ["FILE"; "CONTAINER_FOR_INPUT"]);
   mkOE ["-k"; "--key"] (OAStr "KEYDEF");
   mkOE ["-o"; "--output"] (OAList ["FILE"; "STREAM_OUTPUT"]);
   mkOE ["-S"; "--buffer-size"] (OAStr "SIZE");
   mkOE ["-t"; "--field-separator"] (OAStr "SEP");
   mkOE ["-T"; "--temporary-directory"] (OAList ["DIR"; "OTHER_OUTPUT"]);
   mkOE ["--parallel"] (OAStr "N")].

(** pash_annotations/parser/command_flag_option_info/data/tail.json *)
Definition data_tail : json_data := mkJson
  [FEList ["-c"; "--bytes"];
   FEList ["-f"; "--follow"];
   FEList ["-n"; "--lines"];
   FEList ["-q"; "--quiet"; "--silent"];
   FEList ["--retry"];
   FEList ["-s"];
   FEList ["-v"; "--verbose"];
   FEList ["-z"; "--zero-terminated"];
   FEList ["--help"];
   FEList ["--version"]]
  [mkOE ["--max-unchanged-stats"] (OAStr "N");
   mkOE ["--pid"] (OAStr "PID");
   mkOE ["--sleep-interval"] (OAStr "N")].

(** pash_annotations/parser/command_flag_option_info/data/tee.json *)
Definition data_tee : json_data := mkJson
  [FEList ["-a"; "--append"];
   FEList ["-i"; "--ignore-interrupts"];
   FEList ["-p"];
   FEList ["--help"];
   FEList ["--version"]]
  [mkOE ["--output-error"] (OAStr "MODE")].

(** pash_annotations/parser/command_flag_option_info/data/tr.json *)
Definition data_tr : json_data := mkJson
  [FEList ["-c"; "-C"; "--complement"];
   FEList ["-d"; "--delete"];
   FEList ["-s"; "--squeeze-repeats"];
   FEList ["-t"];
   FEList ["--help"];
   FEList ["--version"]]
  [].

(** pash_annotations/parser/command_flag_option_info/data/uniq.json *)
Definition data_uniq : json_data := mkJson
  [FEList ["-c"; "--count"];
   FEList ["-d"; "--repeated"];
   FEList ["-D"];
   FEStr "-f";
   FEList ["-i"; "--ignore-case"];
   FEStr "-s";
   FEList ["-u"; "--unique"];
   FEList ["-z"; "--zero-terminated"];
   FEStr "-w";
   FEList ["--help"];
   FEList ["--version"]]
  [mkOE ["--all-repeated"] (OAStr "METHOD");
   mkOE ["--skip-fields"] (OAStr "N");
   mkOE ["--group"] (OAStr "METHOD");
   mkOE ["--skip-chars"] (OAStr "N");
   mkOE ["--check-chars"] (OAStr "N")].

(** pash_annotations/parser/command_flag_option_info/data/wc.json *)
Definition data_wc : json_data := mkJson
  [FEList ["-c"; "--bytes"];
   FEList ["-m"; "--chars"];
   FEList ["-l"; "--lines"];
   FEList ["-L"; "--max-line-length"];
   FEList ["-w"; "--words"];
   FEList ["--help"];
   FEList ["--version"]]
  [mkOE ["--files0-from"] (OAStr "GLOB")].

(** pash_annotations/parser/command_flag_option_info/data/xargs.json *)
Definition data_xargs : json_data := mkJson
  [FEList ["--null"];
   FEList ["-o"; "--open-tty"];
   FEList ["-p"; "--interactive"];
   FEList ["--process-slot-var"];
   FEList ["-r"; "--no-run-if-empty"];
   FEList ["-s"; "--max-chars"];
   FEList ["--show-limits"];
   FEList ["-t"; "--verbose"];
   FEList ["-x"; "--exit"];
   FEList ["--help"];
   FEList ["--version"]]
  [mkOE ["-a"; "--arg-file"] (OAList ["FILE"; "OTHER_INPUT"]);
   mkOE ["--delimiter"; "-d"] (OAStr "DELIM");
   mkOE ["-E"; "-e"; "--eof"] (OAStr "EOF_STR");
   mkOE ["-I"; "-i"; "--replace"] (OAStr "REPLACE-STR");
   mkOE ["-L"; "-l"; "--max-lines"] (OAStr "max-lines");
   mkOE ["-n"; "--max-args"] (OAStr "max-args");
   mkOE ["-P"; "--max-procs"] (OAStr "max-procs")].

(** The data directory pash_annotations/parser/command_flag_option_info/data *)
Definition shipped_table : list (string * json_data) :=
  [("_default_data_for_commands.json", data_default_data_for_commands);
   ("awk.json", data_awk);
   ("cat.json", data_cat);
   ("col.json", data_col);
   ("comm.json", data_comm);
   ("custom_sort.json", data_custom_sort);
   ("custom_tr.json", data_custom_tr);
   ("cut.json", data_cut);
   ("diff.json", data_diff);
   ("export.json", data_export);
   ("grep.json", data_grep);
   ("head.json", data_head);
   ("mkfifo.json", data_mkfifo);
   ("mv.json", data_mv);
   ("rm.json", data_rm);
   ("sed.json", data_sed);
   ("seq.json", data_seq);
   ("sort.json", data_sort);
   ("tail.json", data_tail);
   ("tee.json", data_tee);
   ("tr.json", data_tr);
   ("uniq.json", data_uniq);
   ("wc.json", data_wc);
   ("xargs.json", data_xargs)].

(** Reading from the shipped directory.  Simplification: command names that
    contain a slash or a null byte, or are too long for the file system, are
    treated as missing files. *)
Definition shipped_dir : data_dir := fun fn =>
  match dict_find shipped_table fn with
  | Some j => FFound j
  | None => FNotFound
  end.
