(** * The texts of the shipped command data
    GENERATED by tools/gen_texts.py: the bytes of pash_annotations/parser/command_flag_option_info/data/*.json, quotation marks doubled; do not edit. *)
Require Import Verif.PyBase.

(** pash_annotations/parser/command_flag_option_info/data/_default_data_for_commands.json *)
Definition text_default_data_for_commands : string := "{
    ""flag"": [],
    ""option"": [],
    ""comment"": ""just to have json-file for the test using this function""
}
".

(** pash_annotations/parser/command_flag_option_info/data/awk.json *)
Definition text_awk : string := "{
    ""flag"": [
        [
            ""-F"",
            ""--field-separator""
        ],
        [
            ""-b"",
            ""--characters-as-bytes""
        ],
        [
            ""-c"",
            ""--traditional""
        ],
        [
            ""-C"",
            ""--copyright""
        ],
        [
            ""-d"",
            ""--dump-variables""
        ],
        [
            ""-D"",
            ""--debug""
        ],
        [
            ""-e"",
            ""--source""
        ],
        [
            ""-E"",
            ""--exec""
        ],
        [
            ""-g"",
            ""--gen-pot""
        ],
        [
            ""-h"",
            ""--help""
        ],
        [
            ""-i"",
            ""--include""
        ],
        [
            ""-l"",
            ""--load""
        ],
        [
            ""-L"",
            ""--lint""
        ],
        [
            ""-M"",
            ""--bignum""
        ],
        [
            ""-n"",
            ""--non-decimal-data""
        ],
        [
            ""-N"",
            ""--use-lc-numeric""
        ],
        [
            ""-ofile"",
            ""--pretty-print""
        ],
        [
            ""-O"",
            ""--optimize""
        ],
        [
            ""-p"",
            ""--profile""
        ],
        [
            ""-P"",
            ""--posix""
        ],
        [
            ""-r"",
            ""--re-interval""
        ],
        [
            ""-S"",
            ""--sandbox""
        ],
        [
            ""-t"",
            ""--lint-old""
        ],
        [
            ""-V"",
            ""--version""
        ]
    ],
    ""option"": [
        [
            ""-f"",
            ""--file"",
            [""FILE"", ""CONFIG_INPUT""]
        ]
    ]
}
".

(** pash_annotations/parser/command_flag_option_info/data/cat.json *)
Definition text_cat : string := "{
    ""flag"": [
        [
            ""-A"",
            ""--show-all""
        ],
        [
            ""-b"",
            ""--number-nonblank""
        ],
        [
            ""-e"",
            ""-vE""
        ],
        [
            ""-E"",
            ""--show-ends""
        ],
        [
            ""-n"",
            ""--number""
        ],
        [
            ""-s"",
            ""--squeeze-blank""
        ],
        [
            ""-t"",
            ""-vT""
        ],
        [
            ""-T"",
            ""--show-tabs""
        ],
        [
            ""-u""
        ],
        [
            ""-v"",
            ""--show-nonprinting""
        ],
        [
            ""--help""
        ],
        [
            ""--version""
        ]
    ],
    ""option"": []
}
".

(** pash_annotations/parser/command_flag_option_info/data/col.json *)
Definition text_col : string := "{
    ""flag"": [
        [
            ""-b"",
            ""--no-backspaces""
        ],
        [
            ""-f"",
            ""--fine""
        ],
        [
            ""-h"",
            ""--tabs""
        ],
        [
            ""-l"",
            ""--lines""
        ],
        [
            ""-p"",
            ""--pass""
        ],
        [
            ""-x"",
            ""--spaces""
        ],
        [
            ""-V"",
            ""--version""
        ],
        [
            ""-H"",
            ""--help""
        ]
    ],
    ""option"": []
}
".

(** pash_annotations/parser/command_flag_option_info/data/comm.json *)
Definition text_comm : string := "{
    ""flag"": [
        [
            ""-1""
        ],
        [
            ""-2""
        ],
        [
            ""-3""
        ],
        [
            ""--check-order""
        ],
        [
            ""--nocheck-order""
        ],
        [
            ""--total""
        ],
        [
            ""-z"",
            ""--zero-terminated""
        ],
        [
            ""--help""
        ],
        [
            ""--version""
        ]
    ],
    ""option"": [
        [
            ""--output-delimiter"",
            ""STR""
        ]
    ]
}
".

(** pash_annotations/parser/command_flag_option_info/data/custom_sort.json *)
Definition text_custom_sort : string := "{
    ""flag"": [],
    ""option"": []
}
".

(** pash_annotations/parser/command_flag_option_info/data/custom_tr.json *)
Definition text_custom_tr : string := "{
    ""flag"": [],
    ""option"": []
}
".

(** pash_annotations/parser/command_flag_option_info/data/cut.json *)
Definition text_cut : string := "{
    ""flag"": [
        [
            ""-n""
        ],
        [
            ""--complement""
        ],
        [
            ""-s"",
            ""--only-delimited""
        ],
        [
            ""-z"",
            ""--zero-terminated""
        ],
        [
            ""--help""
        ],
        [
            ""--version""
        ],
        [
            ""-M""
        ]
    ],
    ""option"": [
        [
            ""-b"",
            ""--bytes"",
            ""LIST""
        ],
        [
            ""-c"",
            ""--characters"",
            ""LIST""
        ],
        [
            ""-d"",
            ""--delimiter"",
            ""DELIM""
        ],
        [
            ""-f"",
            ""--fields"",
            ""LIST""
        ],
        [
            ""--output-delimiter"",
            ""STRING""
        ]
    ]
}
".

(** pash_annotations/parser/command_flag_option_info/data/diff.json *)
Definition text_diff : string := "{
    ""flag"": [
        [
            ""--normal""
        ],
        [
            ""-q"",
            ""--brief""
        ],
        [
            ""-s"",
            ""--report-identical-files""
        ],
        [
            ""-e"",
            ""--ed""
        ],
        [
            ""-n"",
            ""--rcs""
        ],
        [
            ""-y"",
            ""--side-by-side""
        ],
        [
            ""--left-column""
        ],
        [
            ""--suppress-common-lines""
        ],
        [
            ""-p"",
            ""--show-c-function""
        ],
        [
            ""-t"",
            ""--expand-tabs""
        ],
        [
            ""-T"",
            ""--initial-tab""
        ],
        [
            ""--suppress-blank-empty""
        ],
        [
            ""-l"",
            ""--paginate""
        ],
        [
            ""-r"",
            ""--recursive""
        ],
        [
            ""--no-dereference""
        ],
        [
            ""-N"",
            ""--new-file""
        ],
        [
            ""--unidirectional-new-file""
        ],
        [
            ""--ignore-file-name-case""
        ],
        [
            ""--no-ignore-file-name-case""
        ],
        [
            ""-i"",
            ""--ignore-case""
        ],
        [
            ""-E"",
            ""--ignore-tab-expansion""
        ],
        [
            ""-Z"",
            ""--ignore-trailing-space""
        ],
        [
            ""-b"",
            ""--ignore-space-change""
        ],
        [
            ""-w"",
            ""--ignore-all-space""
        ],
        [
            ""-B"",
            ""--ignore-blank-lines""
        ],
        [
            ""-a"",
            ""--text""
        ],
        [
            ""--strip-trailing-cr""
        ],
        [
            ""-d"",
            ""--minimal""
        ],
        [
            ""--speed-large-files""
        ],
        [
            ""--help""
        ],
        [
            ""-v"",
            ""--version""
        ]
    ],
    ""option"": [
        [
            ""-c"",
            ""-C"",
            ""--context"",
            ""NUM""
        ],
        [
            ""-u"",
            ""-U"",
            ""--unified"",
            ""NUM""
        ],
        [
            ""-W"",
            ""--width"",
            ""NUM""
        ],
        [
            ""-F"",
            ""--show-function-line"",
            ""RE""
        ],
        [
            ""--label"",
            ""LABEL""
        ],
        [
            ""--tabsize"",
            ""NUM""
        ],
        [
            ""-x"",
            ""--exclude"",
            ""PAT""
        ],
        [
            ""--exclude-from"",
            ""-X"",
            [""FILE"", ""EXCLUDES_FROM_INPUT""]
        ],
        [
            ""-S"",
            ""--starting-file"",
            [""FILE"", ""OTHER_INPUT""]
        ],
        [
            ""--from-file"",
            [""FILE"", ""STREAM_INPUT""]
        ],
        [
            ""--to-file"",
            [""FILE"", ""STREAM_INPUT""]
        ],
        [
            ""-I"",
            ""--ignore-matching-lines"",
            ""RE""
        ],
        [
            ""-D"",
            ""--ifdef"",
            ""NAME""
        ],
        [
            ""--line-format"",
            ""LFMT""
        ],
        [
            ""--horizon-lines"",
            ""NUM""
        ],
        [
            ""--color"",
            ""WHEN""
        ],
        [
            ""--palette"",
            ""PALETTE""
        ]
    ]
}
".

(** pash_annotations/parser/command_flag_option_info/data/export.json *)
Definition text_export : string := "{
    ""flag"": [
        [
            ""-f""
        ],
        [
            ""-n""
        ],
        [
            ""-p""
        ]
    ],
    ""option"": [],
    ""comment"": ""ignores [name[=value] ...]""
}
".

(** pash_annotations/parser/command_flag_option_info/data/grep.json *)
Definition text_grep : string := "{
    ""flag"": [
        [
            ""--help""
        ],
        [
            ""-V"",
            ""--version""
        ],
        [
            ""-E"",
            ""--extended-regexp""
        ],
        [
            ""-F"",
            ""--fixed-strings""
        ],
        [
            ""-G"",
            ""--basic-regexp""
        ],
        [
            ""-P"",
            ""--perl-regexp""
        ],
        [
            ""-i"",
            ""-y"",
            ""--ignore-case""
        ],
        [
            ""--no-ignore-case""
        ],
        [
            ""-v"",
            ""--invert-match""
        ],
        [
            ""-w"",
            ""--word-regexp""
        ],
        [
            ""-x"",
            ""--line-regexp""
        ],
        [
            ""-c"",
            ""--count""
        ],
        [
            ""-L"",
            ""--files-without-match""
        ],
        [
            ""-l"",
            ""--files-with-matches""
        ],
        [
            ""-o"",
            ""--only-matching""
        ],
        [
            ""-q"",
            ""--quiet"",
            ""--silent""
        ],
        [
            ""-s"",
            ""--no-messages""
        ],
        [
            ""-b"",
            ""--byte-offset""
        ],
        [
            ""-H"",
            ""--with-filename""
        ],
        [
            ""-h"",
            ""--no-filename""
        ],
        [
            ""-n"",
            ""--line-number""
        ],
        [
            ""-T"",
            ""--initial-tab""
        ],
        [
            ""-u"",
            ""--unix-byte-offsets""
        ],
        [
            ""-Z"",
            ""--null""
        ],
        [
            ""--no-group-separator""
        ],
        [
            ""-a"",
            ""--text""
        ],
        [
            ""-I""
        ],
        [
            ""-r"",
            ""--recursive""
        ],
        [
            ""-R"",
            ""--dereference-recursive""
        ],
        [
            ""--line-buffered""
        ],
        [
            ""-U"",
            ""--binary""
        ],
        [
            ""-z"",
            ""--null-data""
        ]
    ],
    ""option"": [
        [
            ""-e"",
            ""PATTERNS""
        ],
        [
            ""--regexp"",
            ""PATTERNS""
        ],
        [
            ""-f"",
            ""--file"",
            [""FILE"", ""CONFIG_INPUT""]
        ],
        [
            ""--color"",
            ""WHEN""
        ],
        [
            ""--colour"",
            ""WHEN""
        ],
        [
            ""-m"",
            ""NUM""
        ],
        [
            ""--max-count"",
            ""NUM""
        ],
        [
            ""--label"",
            ""LABEL""
        ],
        [
            ""-A"",
            ""NUM""
        ],
        [
            ""--after-context"",
            ""NUM""
        ],
        [
            ""-B"",
            ""NUM""
        ],
        [
            ""--before-context"",
            ""NUM""
        ],
        [
            ""-C"",
            ""NUM""
        ],
        [
            ""--context"",
            ""NUM""
        ],
        [
            ""--group-separator"",
            ""SEP""
        ],
        [
            ""--binary-files"",
            ""TYPE""
        ],
        [
            ""-D"",
            ""ACTION""
        ],
        [
            ""--devices"",
            ""ACTION""
        ],
        [
            ""-d"",
            ""ACTION""
        ],
        [
            ""--directories"",
            ""ACTION""
        ],
        [
            ""--exclude"",
            ""GLOB""
        ],
        [
            ""--exclude-from"",
            [""FILE"", ""EXCLUDES_FROM_INPUT""]
        ],
        [
            ""--exclude-dir"",
            ""GLOB""
        ],
        [
            ""--include"",
            ""GLOB""
        ]
    ]
}
".

(** pash_annotations/parser/command_flag_option_info/data/head.json *)
Definition text_head : string := "{
    ""flag"": [
        [
            ""-q"",
            ""--quiet"",
            ""--silent""
        ],
        [
            ""-v"",
            ""--verbose""
        ],
        [
            ""-z"",
            ""--zero-terminated""
        ],
        [
            ""--help""
        ],
        [
            ""--version""
        ]
    ],
    ""option"": [
        [
            ""-n"",
            ""--lines"",
            ""NUM""
        ],
        [
            ""-c"",
            ""--bytes"",
            ""NUM""
        ]
    ]
}
".

(** pash_annotations/parser/command_flag_option_info/data/mkfifo.json *)
Definition text_mkfifo : string := "{
    ""flag"": [
        [
            ""-m""
        ],
        [
            ""-Z""
        ],
        [
            ""--help""
        ],
        [
            ""--version""
        ]
    ],
    ""option"": [
        [
            ""--mode"",
            ""MODE""
        ],
        [
            ""--context"",
            ""CTX""
        ]
    ]
}
".

(** pash_annotations/parser/command_flag_option_info/data/mv.json *)
Definition text_mv : string := "{
    ""flag"": [
        [
            ""-b"",
            ""--backup""
        ],
        [
            ""-f"",
            ""--force""
        ],
        [
            ""-i"",
            ""--interactive""
        ],
        [
            ""-n"",
            ""--no-clobber""
        ],
        [
            ""--strip-trailing-slashes""
        ],
        [
            ""-T"",
            ""--no-target-directory""
        ],
        [
            ""-u"",
            ""--update""
        ],
        [
            ""-v"",
            ""--verbose""
        ],
        [
            ""-Z"",
            ""--context""
        ],
        [
            ""--help""
        ],
        [
            ""--version""
        ]
    ],
    ""option"": [
        [
            ""--backup"",
            ""CONTROL""
        ],
        [
            ""-S"",
            ""--suffix"",
            ""SUFFIX""
        ],
        [
            ""-t"",
            ""--target-directory"",
            [""DIRECTORY"", ""OTHER_OUTPUT""]
        ]
    ]
}
".

(** pash_annotations/parser/command_flag_option_info/data/rm.json *)
Definition text_rm : string := "{
    ""flag"": [
        [
            ""-f"",
            ""--force""
        ],
        [
            ""-i""
        ],
        [
            ""-I""
        ],
        [
            ""--one-file-system""
        ],
        [
            ""--no-preserve-root""
        ],
        [
            ""-r"",
            ""-R"",
            ""--recursive""
        ],
        [
            ""-d"",
            ""--dir""
        ],
        [
            ""-v"",
            ""--verbose""
        ],
        [
            ""--help""
        ],
        [
            ""--version""
        ]
    ],
    ""option"": [
        [
            ""--interactive"",
            ""WHEN""
        ],
        [
            ""--preserve-root"",
            ""all""
        ]
    ]
}
".

(** pash_annotations/parser/command_flag_option_info/data/sed.json *)
Definition text_sed : string := "{
    ""flag"": [
        [
            ""-n"",
            ""--quiet"",
            ""--silent""
        ],
        [
            ""--debug""
        ],
        [
            ""-e"",
            ""--expression""
        ],
        [
            ""-f"",
            ""--file""
        ],
        [
            ""--follow-symlinks""
        ],
        [
            ""--posix""
        ],
        [
            ""-E"",
            ""-r"",
            ""--regexp-extended""
        ],
        [
            ""-s"",
            ""--separate""
        ],
        [
            ""--sandbox""
        ],
        [
            ""-u"",
            ""--unbuffered""
        ],
        [
            ""-z"",
            ""--null-data""
        ],
        [
            ""--help""
        ],
        [
            ""--version""
        ]
    ],
    ""option"": [
        [
            ""--in-place"",
            ""SUFFIX""
        ],
        [
            ""-l"",
            ""N""
        ],
        [
            ""--line-length"",
            ""N""
        ]
    ]
}
".

(** pash_annotations/parser/command_flag_option_info/data/seq.json *)
Definition text_seq : string := "{
    ""flag"": [
        [
            ""-w"",
            ""--equal-width""
        ],
        [
            ""--help""
        ],
        [
            ""--version""
        ]
    ],
    ""option"": [
        [
            ""-f"",
            ""--format"",
            ""FORMAT""
        ],
        [
            ""-s"",
            ""--separator"",
            ""STRING""
        ]
    ]
}
".

(** pash_annotations/parser/command_flag_option_info/data/sort.json *)
Definition text_sort : string := "{
    ""flag"": [
        [
            ""-b"",
            ""--ignore-leading-blanks""
        ],
        [
            ""-d"",
            ""--dictionary-order""
        ],
        [
            ""-f"",
            ""--ignore-case""
        ],
        [
            ""-g"",
            ""--general-numeric-sort""
        ],
        [
            ""-i"",
            ""--ignore-nonprinting""
        ],
        [
            ""-M"",
            ""--month-sort""
        ],
        [
            ""-h"",
            ""--human-numeric-sort""
        ],
        [
            ""-n"",
            ""--numeric-sort""
        ],
        [
            ""-R"",
            ""--random-sort""
        ],
        [
            ""-r"",
            ""--reverse""
        ],
        [
            ""-V"",
            ""--version-sort""
        ],
        [
            ""-c"",
            ""--check""
        ],
        [
            ""-C""
        ],
        [
            ""--debug""
        ],
        [
            ""-m"",
            ""--merge""
        ],
        [
            ""-s"",
            ""--stable""
        ],
        [
            ""-u"",
            ""--unique""
        ],
        [
            ""-z"",
            ""--zero-terminated""
        ],
        [
            ""--help""
        ],
        [
            ""--version""
        ]
    ],
    ""option"": [
        [
            ""--random-source"",
            [""FILE"", ""CONFIG_INPUT""]
        ],
        [
            ""--sort"",
            ""WORD""
        ],
        [
            ""--batch-size"",
            ""NMERGE""
        ],
        [
            ""--compress-program"",
            ""PROG""
        ],
        [
            ""--files0-from"",
            [""FILE"", ""CONTAINER_FOR_INPUT""]
        ],
        [
            ""-k"",
            ""--key"",
            ""KEYDEF""
        ],
        [
            ""-o"",
            ""--output"",
            [""FILE"", ""STREAM_OUTPUT""]
        ],
        [
            ""-S"",
            ""--buffer-size"",
            ""SIZE""
        ],
        [
            ""-t"",
            ""--field-separator"",
            ""SEP""
        ],
        [
            ""-T"",
            ""--temporary-directory"",
            [""DIR"", ""OTHER_OUTPUT""]
        ],
        [
            ""--parallel"",
            ""N""
        ]
    ]
}
".

(** pash_annotations/parser/command_flag_option_info/data/tail.json *)
Definition text_tail : string := "{
    ""flag"": [
        [
            ""-c"",
            ""--bytes""
        ],
        [
            ""-f"",
            ""--follow""
        ],
        [
            ""-n"",
            ""--lines""
        ],
        [
            ""-q"",
            ""--quiet"",
            ""--silent""
        ],
        [
            ""--retry""
        ],
        [
            ""-s""
        ],
        [
            ""-v"",
            ""--verbose""
        ],
        [
            ""-z"",
            ""--zero-terminated""
        ],
        [
            ""--help""
        ],
        [
            ""--version""
        ]
    ],
    ""option"": [
        [
            ""--max-unchanged-stats"",
            ""N""
        ],
        [
            ""--pid"",
            ""PID""
        ],
        [
            ""--sleep-interval"",
            ""N""
        ]
    ]
}
".

(** pash_annotations/parser/command_flag_option_info/data/tee.json *)
Definition text_tee : string := "{
    ""flag"": [
        [
            ""-a"",
            ""--append""
        ],
        [
            ""-i"",
            ""--ignore-interrupts""
        ],
        [
            ""-p""
        ],
        [
            ""--help""
        ],
        [
            ""--version""
        ]
    ],
    ""option"": [
        [
            ""--output-error"",
            ""MODE""
        ]
    ]
}
".

(** pash_annotations/parser/command_flag_option_info/data/tr.json *)
Definition text_tr : string := "{
    ""flag"": [
        [
            ""-c"",
            ""-C"",
            ""--complement""
        ],
        [
            ""-d"",
            ""--delete""
        ],
        [
            ""-s"",
            ""--squeeze-repeats""
        ],
        [
            ""-t""
        ],
        [
            ""--help""
        ],
        [
            ""--version""
        ]
    ],
    ""option"": []
}
".

(** pash_annotations/parser/command_flag_option_info/data/uniq.json *)
Definition text_uniq : string := "{
    ""flag"": [
        [
            ""-c"",
            ""--count""
        ],
        [
            ""-d"",
            ""--repeated""
        ],
        [
            ""-D""
        ],
        ""-f"",
        [
            ""-i"",
            ""--ignore-case""
        ],
        ""-s"",
        [
            ""-u"",
            ""--unique""
        ],
        [
            ""-z"",
            ""--zero-terminated""
        ],
        ""-w"",
        [
            ""--help""
        ],
        [
            ""--version""
        ]
    ],
    ""option"": [
        [
            ""--all-repeated"",
            ""METHOD""
        ],
        [
            ""--skip-fields"",
            ""N""
        ],
        [
            ""--group"",
            ""METHOD""
        ],
        [
            ""--skip-chars"",
            ""N""
        ],
        [
            ""--check-chars"",
            ""N""
        ]
    ]
}
".

(** pash_annotations/parser/command_flag_option_info/data/wc.json *)
Definition text_wc : string := "{
    ""flag"": [
        [
            ""-c"",
            ""--bytes""
        ],
        [
            ""-m"",
            ""--chars""
        ],
        [
            ""-l"",
            ""--lines""
        ],
        [
            ""-L"",
            ""--max-line-length""
        ],
        [
            ""-w"",
            ""--words""
        ],
        [
            ""--help""
        ],
        [
            ""--version""
        ]
    ],
    ""option"": [
        [
            ""--files0-from"",
            ""GLOB""
        ]
    ]
}
".

(** pash_annotations/parser/command_flag_option_info/data/xargs.json *)
Definition text_xargs : string := "{
    ""flag"": [
        [
            ""--null""
        ],
        [
            ""-o"",
            ""--open-tty""
        ],
        [
            ""-p"",
            ""--interactive""
        ],
        [
            ""--process-slot-var""
        ],
        [
            ""-r"",
            ""--no-run-if-empty""
        ],
        [
            ""-s"",
            ""--max-chars""
        ],
        [
            ""--show-limits""
        ],
        [
            ""-t"",
            ""--verbose""
        ],
        [
            ""-x"",
            ""--exit""
        ],
        [
            ""--help""
        ],
        [
            ""--version""
        ]
    ],
    ""option"": [
        [
            ""-a"",
            ""--arg-file"",
            [""FILE"", ""OTHER_INPUT""]
        ],
        [
            ""--delimiter"",
            ""-d"",
            ""DELIM""
        ],
        [
            ""-E"",
            ""-e"",
            ""--eof"",
            ""EOF_STR""
        ],
        [
            ""-I"",
            ""-i"",
            ""--replace"",
            ""REPLACE-STR""
        ],
        [
            ""-L"",
            ""-l"",
            ""--max-lines"",
            ""max-lines""
        ],
        [
            ""-n"",
            ""--max-args"",
            ""max-args""
        ],
        [
            ""-P"",
            ""--max-procs"",
            ""max-procs""
        ]
    ]
}
".

(** The files of the directory *)
Definition shipped_texts : list (string * string) :=
  [("_default_data_for_commands.json", text_default_data_for_commands);
   ("awk.json", text_awk);
   ("cat.json", text_cat);
   ("col.json", text_col);
   ("comm.json", text_comm);
   ("custom_sort.json", text_custom_sort);
   ("custom_tr.json", text_custom_tr);
   ("cut.json", text_cut);
   ("diff.json", text_diff);
   ("export.json", text_export);
   ("grep.json", text_grep);
   ("head.json", text_head);
   ("mkfifo.json", text_mkfifo);
   ("mv.json", text_mv);
   ("rm.json", text_rm);
   ("sed.json", text_sed);
   ("seq.json", text_seq);
   ("sort.json", text_sort);
   ("tail.json", text_tail);
   ("tee.json", text_tee);
   ("tr.json", text_tr);
   ("uniq.json", text_uniq);
   ("wc.json", text_wc);
   ("xargs.json", text_xargs)].
Definition shipped_text : string -> option string := dict_find shipped_texts.
