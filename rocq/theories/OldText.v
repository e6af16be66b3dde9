(** * The texts of the records of the earlier annotation language
    GENERATED by tools/gen_old.py: the bytes of pash_annotations/old_annotations/*.json, quotation marks doubled,
    carriage returns before newlines left out (as Python does in text mode); do not edit. *)
Require Import Verif.PyBase.

(** pash_annotations/old_annotations/alt_bigram_aux_reduce.json *)
Definition old_alt_bigram_aux_reduce : string := "{
    ""command"": ""alt_bigram_aux_reduce"",
    ""cases"":
    [
        {
            ""predicate"": ""default"",
            ""class"": ""pure"",
            ""inputs"": [""args[:]""],
            ""outputs"": [""stdout""]
        }
    ]
}
".

(** pash_annotations/old_annotations/alt_bigrams_aux.json *)
Definition old_alt_bigrams_aux : string := "{
    ""command"": ""alt_bigrams_aux"",
    ""cases"":
    [
        {
            ""predicate"": ""default"",
            ""class"": ""parallelizable_pure"",
            ""inputs"": [""stdin""],
            ""outputs"": [""stdout""],
            ""aggregator"":
            {
                ""name"": ""alt_bigram_aux_reduce""
            }
        }
    ],
    ""comment"": ""This is a custom command that is used in our evaluation.""
}
".

(** pash_annotations/old_annotations/auto-split.json *)
Definition old_auto_split : string := "{
    ""command"": ""auto-split.sh"",
    ""cases"":
    [
        {
            ""predicate"": ""default"",
            ""class"": ""pure"",
            ""inputs"": [""args[0]""],
            ""outputs"": [""args[1:]""]
        }
    ]
}
".

(** pash_annotations/old_annotations/awk.json *)
Definition old_awk : string := "{
    ""command"": ""awk"",
    ""cases"":
    [
        {
            ""predicate"": ""default"",
            ""class"": ""pure"",
            ""inputs"": [""stdin""],
            ""outputs"": [""stdout""]
        }
    ]
}
".

(** pash_annotations/old_annotations/bc.json *)
Definition old_bc : string := "{
    ""command"": ""bc"",
    ""cases"":
    [
        {
            ""predicate"": ""default"",
            ""class"": ""stateless"",
            ""inputs"": [""stdin""],
            ""outputs"": [""stdout""]
        }
    ]
}
".

(** pash_annotations/old_annotations/bigram_aux_map.json *)
Definition old_bigram_aux_map : string := "{
    ""command"": ""bigram_aux_map"",
    ""cases"":
    [
        {
            ""predicate"": ""default"",
            ""class"": ""pure"",
            ""inputs"": [""args[0]""],
            ""outputs"": [""args[1:4]""]
        }
    ]
}
".

(** pash_annotations/old_annotations/bigram_aux_reduce.json *)
Definition old_bigram_aux_reduce : string := "{
    ""command"": ""bigram_aux_reduce"",
    ""cases"":
    [
        {
            ""predicate"": ""default"",
            ""class"": ""pure"",
            ""inputs"": [""args[:6]""],
            ""outputs"": [""args[6:]""]
        }
    ]
}
".

(** pash_annotations/old_annotations/bigrams_aux.json *)
Definition old_bigrams_aux : string := "{
    ""command"": ""bigrams_aux"",
    ""cases"":
    [
        {
            ""predicate"": ""default"",
            ""class"": ""parallelizable_pure"",
            ""inputs"": [""stdin""],
            ""outputs"": [""stdout""],
            ""aggregator"":
            {
                ""name"": ""bigram_aux_reduce""
            },
            ""mapper"":
            {
                ""name"": ""bigram_aux_map"",
                ""num_outputs"": 3,
                ""comment"": ""This is only needed if the map phase of a command is not the same as the command itself. In addition, this map here needs to keep extra info. TODO: At some point, the num_outputs should be extracted from the annotation of the mapper itself.""
            }
        }
    ],
    ""comment"": ""This is a custom command that is used in our evaluation.""
}
".

(** pash_annotations/old_annotations/cat.json *)
Definition old_cat : string := "{
    ""command"": ""cat"",
    ""aggregate"": ""$PASH_TOP/runtime/agg/py/cat.py"", ""comment"": ""TODO(@DanielSongShen) Can't capture all cases of cat i.e. cat -n needs a different aggregator. Perhaps have an aggregate record per predicate."",
    ""cases"":
    [
		{
            ""predicate"":
            {
                ""operator"": ""exists"",
                ""operands"": [""-n""]
            },
            ""class"": ""pure"",
            ""inputs"": [""args[:]""],
            ""outputs"": [""stdout""],
			""comment"": ""Pure because -n prints line numbering, and splitting affects it""
		},
        {
            ""predicate"":
            {
                ""operator"": ""len_args_eq"",
                ""operands"": [0]
            },
            ""comment"": "":')"",
            ""class"": ""stateless"",
            ""inputs"": [""stdin""],
            ""outputs"": [""stdout""]
        },
        {
            ""predicate"": ""default"",
            ""class"": ""stateless"",
            ""inputs"": [""args[:]""],
            ""outputs"": [""stdout""],
            ""options"": [""stdin-hyphen""]
        }
    ],
    ""options"": [""stdin-hyphen""]
}
".

(** pash_annotations/old_annotations/chmod.json *)
Definition old_chmod : string := "{
    ""command"": ""chmod"",
    ""cases"":
    [
        {
            ""predicate"": ""default"",
            ""class"": ""side-effectful"",
            ""inputs"": [""stdin""],
            ""outputs"": [""stdout""]
        }
    ]
}
".

(** pash_annotations/old_annotations/col.json *)
Definition old_col : string := "{
    ""command"": ""col"",
    ""cases"":
    [
        {
            ""predicate"": ""default"",
            ""class"": ""stateless"",
            ""inputs"": [""stdin""],
            ""outputs"": [""stdout""]
        }
    ]
}
".

(** pash_annotations/old_annotations/comm.json *)
Definition old_comm : string := "{
    ""command"": ""comm"",
    ""cases"":
    [
        {
            ""predicate"": ""default"",
            ""class"": ""pure"",
            ""inputs"": [""args[:]""],
            ""outputs"": [""stdout""],
            ""options"": [""stdin-hyphen""]
        }
    ]
}
".

(** pash_annotations/old_annotations/convert.json *)
Definition old_convert : string := "{
    ""command"": ""convert"",
    ""cases"":
    [
        
        {
            ""predicate"": ""default"",
            ""class"": ""pure"",
            ""inputs"": [""args[1]""],
            ""outputs"": [""args[2]""]
        }
    ]
}
".

(** pash_annotations/old_annotations/custom_sort.json *)
Definition old_custom_sort : string := "{
    ""command"": ""custom_sort"",
    ""cases"":
    [
        {
            ""predicate"":
            {
                ""operator"": ""exists"",
                ""operands"": [""-m""]
            },
            ""class"": ""pure"",
            ""inputs"": [""args[:]""],
            ""outputs"": [""stdout""]
        },
        {
            ""predicate"": ""default"",
            ""class"": ""parallelizable_pure"",
            ""properties"": [""commutative""],
            ""inputs"": [""stdin""],
            ""outputs"": [""stdout""],
            ""aggregator"":
            {
                ""name"": ""sort"",
                ""options"": [""-m""]
            }
        }
    ],
    ""comment"": ""TODO: This is not correct. To assign arguments correctly, we need to check if there is any file argument. If not, then we can read from stdin, otherwise we have to read from input files.""
}
".

(** pash_annotations/old_annotations/custom_tr.json *)
Definition old_custom_tr : string := "{
    ""command"": ""custom_tr"",
    ""cases"":
    [
        {
            ""predicate"": ""default"",
            ""class"": ""stateless"",
            ""inputs"": [""stdin""],
            ""outputs"": [""stdout""]
        }
    ]
}
".

(** pash_annotations/old_annotations/cut.json *)
Definition old_cut : string := "{
    ""command"": ""cut"",
    ""cases"":
    [
        {
            ""predicate"":
            {
                ""operator"": ""and"",
                ""operands"":
                [
                    {
                        ""operator"": ""val_opt_eq"",
                        ""operands"": [""-d"", ""--delimiter"", ""\n""]
                    },
                    {
                        ""operator"": ""exists"",
                        ""operands"": [""-f"", ""--fields""]
                    }
                ]
            },
            ""class"": ""pure"",
            ""inputs"": [""stdin""],
            ""outputs"": [""stdout""],
			""comments"": ""Stateless in all cases with exception in case where newline is a delimiter.""
        },
        {
            ""predicate"": ""default"",
            ""class"": ""stateless"",
            ""inputs"": [""stdin""],
            ""outputs"": [""stdout""]
        }
    ]
}
".

(** pash_annotations/old_annotations/date.json *)
Definition old_date : string := "{
    ""command"": ""date"",
    ""cases"":
    [
        {
            ""predicate"": ""default"",
            ""class"": ""pure"",
            ""inputs"": [""stdin""],
            ""outputs"": [""stdout""]
        }
    ]
}
".

(** pash_annotations/old_annotations/dd.json *)
Definition old_dd : string := "{
    ""command"": ""dd"",
    ""cases"":
    [
        {
            ""predicate"": ""default"",
            ""class"": ""side-effectful"",
            ""inputs"": [""stdin""],
            ""outputs"": [""stdout""]
        }
    ]
}
".

(** pash_annotations/old_annotations/dfs_split_reader.json *)
Definition old_dfs_split_reader : string := "{
    ""command"": ""dfs_split_reader.sh"",
    ""cases"":
    [
        {
            ""predicate"": ""default"",
            ""class"": ""pure"",
            ""inputs"": [""args[0]""],
            ""outputs"": [""stdout""]
        }
    ]
}
".

(** pash_annotations/old_annotations/dgsh_tee.json *)
Definition old_dgsh_tee : string := "{
    ""command"": ""dgsh_tee.sh"",
    ""cases"":
    [
        {
            ""predicate"": ""default"",
            ""class"": ""pure"",
            ""inputs"": [""args[0]""],
            ""outputs"": [""args[1]""]
        }
    ]
}
".

(** pash_annotations/old_annotations/diff.json *)
Definition old_diff : string := "{
    ""command"": ""diff"",
    ""cases"":
    [
        {
            ""predicate"": ""default"",
            ""class"": ""pure"",
            ""inputs"": [""args[:]""],
            ""outputs"": [""stdout""]
        }
    ]
}
".

(** pash_annotations/old_annotations/eager-no-task-par.json *)
Definition old_eager_no_task_par : string := "{
    ""command"": ""eager-no-task-par.sh"",
    ""cases"":
    [
        {
            ""predicate"": ""default"",
            ""class"": ""pure"",
            ""inputs"": [""args[0]""],
            ""outputs"": [""args[1]""]
        }
    ]
}
".

(** pash_annotations/old_annotations/eager.json *)
Definition old_eager : string := "{
    ""command"": ""eager.sh"",
    ""cases"":
    [
        {
            ""predicate"": ""default"",
            ""class"": ""pure"",
            ""inputs"": [""args[0]""],
            ""outputs"": [""args[1]""]
        }
    ]
}
".

(** pash_annotations/old_annotations/echo.json *)
Definition old_echo : string := "{
	""command"": ""echo"",
	""cases"":
	[
	    {
		""predicate"": ""default"",
		""class"": ""pure"", ""comment"": ""No input so f(a++b) != f(a) ++ f(b)"",
		""inputs"": [ ],
		""outputs"": [""stdout""]
	    }
	]
}
".

(** pash_annotations/old_annotations/export.json *)
Definition old_export : string := "{
    ""command"": ""export"",
    ""cases"":
    [
        {
            ""predicate"": ""default"",
            ""class"": ""side-effectful"",
            ""inputs"": [""stdin""],
            ""outputs"": [""stdout""]
        }
    ]
}
".

(** pash_annotations/old_annotations/extract_text.json *)
Definition old_extract_text : string := "{
    ""command"": ""extract_text"",
    ""cases"":
    [
        {
            ""predicate"": ""default"",
            ""class"": ""stateless"",
            ""inputs"": [""stdin""],
            ""outputs"": [""stdout""]
        }
    ]
}

".

(** pash_annotations/old_annotations/ffmpeg.json *)
Definition old_ffmpeg : string := "{
    ""command"": ""ffmpeg"",
    ""cases"":
    [
        {
            ""predicate"": ""default"",
            ""class"": ""pure"",
            ""inputs"": [""args[:]""],
            ""outputs"": [""stdout""],
            ""options"": [""stdin-hyphen""]
        }
    ]
}
".

(** pash_annotations/old_annotations/find.json *)
Definition old_find : string := "{
    ""command"": ""find"",
    ""cases"":
    [
        {
            ""predicate"": ""default"",
            ""class"": ""side-effectful"",
            ""inputs"": [""args[:]""],
            ""outputs"": [""stdout""]
        }
    ]
}
".

(** pash_annotations/old_annotations/fmt.json *)
Definition old_fmt : string := "{
    ""command"": ""fmt"",
    ""cases"":
    [
        {
            ""predicate"":
            {
                ""operator"": ""exists"",
                ""operands"": [""-w1""]
            },
            ""class"": ""stateless"",
            ""inputs"": [""stdin""],
            ""outputs"": [""stdout""]
        },
        {
            ""predicate"": ""default"",
            ""class"": ""pure"",
            ""inputs"": [""stdin""],
            ""outputs"": [""stdout""]
        }
    ]
}
".

(** pash_annotations/old_annotations/grep.json *)
Definition old_grep : string := "{
    ""command"": ""grep"",
    ""cases"":
    [
        {
            ""predicate"":
            {
                ""operator"": ""exists"",
                ""operands"": [""-c""]
            },
            ""class"": ""pure"",
            ""inputs"": [""stdin""],
            ""outputs"": [""stdout""]
        },
        {
            ""predicate"":
            {
                ""operator"": ""len_args_eq"",
                ""operands"": [1]
            },
            ""comment"": ""This doesn't work if the pattern is given with the -e, -f flags"",
            ""class"": ""stateless"",
            ""inputs"": [""stdin""],
            ""outputs"": [""stdout""]
        },
        {
            ""predicate"":
            {
                ""operator"": ""exists"",
                ""operands"": [""-r"",
                             ""--recursive"",
                             ""-R"",
                             ""--dereference-recursive""]
            },
            ""class"": ""side-effects"",
            ""comment"": ""In this case this reads directories and that is why we conservatively assume it is side-effectful. It is possible that this could be made more precise to be stateless.""
        },
        {
            ""predicate"": ""default"",
            ""class"": ""stateless"",
            ""inputs"": [""args[:]""],
            ""outputs"": [""stdout""],
            ""comment"": ""This isn't _quite_ right---we need to identify a pattern somewhere and exclude it from `input`.""
        }
    ],
    ""comment"": ""For the stateless one we need to add -h|--no-filename as a requirement if it takes multiple files as input.""
}
".

(** pash_annotations/old_annotations/groff.json *)
Definition old_groff : string := "{
    ""command"": ""groff"",
    ""cases"":
    [
        {
            ""predicate"": ""default"",
            ""class"": ""stateless"",
            ""inputs"": [""stdin""],
            ""outputs"": [""stdout""]
        }
    ]
}
".

(** pash_annotations/old_annotations/gunzip.json *)
Definition old_gunzip : string := "{
    ""command"": ""gunzip"",
    ""cases"":
    [
        {
            ""predicate"": ""default"",
            ""class"": ""stateless"",
            ""inputs"": [""stdin""],
            ""outputs"": [""stdout""]
        }
    ]
}
".

(** pash_annotations/old_annotations/gzip.json *)
Definition old_gzip : string := "{
    ""command"": ""gzip"",
    ""cases"":
    [
        {
            ""predicate"": ""default"",
            ""class"": ""stateless"",
            ""inputs"": [""stdin""],
            ""outputs"": [""stdout""],
			""options"": ""no_split_stream"",
			""comment"": ""stateless if gzip a.zip b.zip; single file stream has to be contiguous""
        }
    ]
}
".

(** pash_annotations/old_annotations/hdfs.json *)
Definition old_hdfs : string := "{
    ""command"": ""hdfs"",
    ""cases"":
    [
        {
            ""predicate"":
            {
                ""operator"": ""exists"",
                ""operands"": [""-cat""]
            },
            ""class"": ""stateless"",
            ""inputs"": [""args[1]""],
            ""outputs"": [""stdout""],
			""comments"": ""This represents hdfs dfs -cat <path>. Slightly hacky since we only check for -cat""
        },
        {
            ""predicate"": ""default"",
            ""class"": ""side-effectful"",
            ""inputs"": [""stdin""],
            ""outputs"": [""stdout""]
        }
    ]
}".

(** pash_annotations/old_annotations/head.json *)
Definition old_head : string := "{
    ""command"": ""head"",
    ""aggregate"": ""$PASH_TOP/runtime/agg/py/head.py"",
    ""cases"":
    [
        {
            ""predicate"": ""default"",
            ""class"": ""pure"",
            ""inputs"": [""stdin""],
            ""outputs"": [""stdout""]
        }
    ]
}
".

(** pash_annotations/old_annotations/history.json *)
Definition old_history : string := "{
    ""command"": ""history"",
    ""cases"":
    [
        {
            ""predicate"": ""default"",
            ""class"": ""side-effectful"",
            ""inputs"": [],
            ""outputs"": [""stdout""]
        }
    ]
}
".

(** pash_annotations/old_annotations/iconv.json *)
Definition old_iconv : string := "{
    ""command"": ""iconv"",
    ""cases"":
    [
        {
            ""predicate"": ""default"",
            ""class"": ""pure"",
            ""inputs"": [""stdin""],
            ""outputs"": [""stdout""]
        }
    ]
}
".

(** pash_annotations/old_annotations/jobs.json *)
Definition old_jobs : string := "{
    ""command"": ""jobs"",
    ""cases"":
    [
        {
            ""predicate"": ""default"",
            ""class"": ""stateless"",
            ""inputs"": [""stdin""],
            ""outputs"": [""stdout""]
        }
    ]
}
".

(** pash_annotations/old_annotations/ls.json *)
Definition old_ls : string := "{
    ""command"": ""ls"",
    ""cases"":
    [
        {
            ""predicate"": ""default"",
            ""class"": ""side-effectful"",
            ""inputs"": [""stdin""],
            ""outputs"": [""stdout""]
        }
    ]
}
".

(** pash_annotations/old_annotations/mkfifo.json *)
Definition old_mkfifo : string := "{
    ""command"": ""mkfifo"",
    ""cases"":
    [
        {
            ""predicate"": ""default"",
            ""class"": ""side-effectful"",
            ""inputs"": [""stdin""],
            ""outputs"": [""stdout""]
        }
    ]
}
".

(** pash_annotations/old_annotations/mktemp.json *)
Definition old_mktemp : string := "{
    ""command"": ""mktemp"",
    ""cases"":
    [
        {
            ""predicate"": ""default"",
            ""class"": ""side-effectful"",
            ""inputs"": [""stdin""],
            ""outputs"": [""stdout""]
        }
    ]
}
".

(** pash_annotations/old_annotations/multiply.json *)
Definition old_multiply : string := "{
    ""command"": ""multiply.sh"",
    ""cases"":
    [
        {
            ""predicate"": ""default"",
            ""class"": ""pure"",
            ""inputs"": [""stdin""],
            ""outputs"": [""stdout""]
        }
    ]
}
".

(** pash_annotations/old_annotations/nc.json *)
Definition old_nc : string := "{
    ""command"": ""nc"",
    ""cases"":
    [
        {
            ""predicate"": ""default"",
            ""class"": ""side-effectful"",
            ""inputs"": [""stdin""],
            ""outputs"": [""stdout""]
        }
    ]
}
".

(** pash_annotations/old_annotations/nl.json *)
Definition old_nl : string := "{
    ""command"": ""nl"",
    ""aggregate"": ""$PASH_TOP/runtime/agg/py/nl.py"",
    ""cases"":
    [
        {
            ""predicate"": ""default"",
            ""class"": ""pure"",
            ""inputs"": [""stdin""],
            ""outputs"": [""stdout""]
        }
    ]
}
".

(** pash_annotations/old_annotations/package_build_aux.json *)
Definition old_package_build_aux : string := "{
    ""command"": ""package_build_aux"",
    ""cases"":
    [
        {
            ""predicate"": ""default"",
            ""class"": ""pure"",
            ""inputs"": [""args[0]""],
            ""outputs"": [""stdout""]
        }
    ]
}
".

(** pash_annotations/old_annotations/pandoc.json *)
Definition old_pandoc : string := "{
    ""command"": ""pandoc"",
    ""cases"":
    [
        {
            ""predicate"": ""default"",
            ""class"": ""non-pure"",
            ""inputs"": [""args[:]""],
            ""outputs"": [""stdout""]
        }
    ]
}
".

(** pash_annotations/old_annotations/paste.json *)
Definition old_paste : string := "{
    ""command"": ""paste"",
    ""cases"":
    [
        {
            ""predicate"": ""default"",
            ""class"": ""pure"",
            ""inputs"": [""args[:]""],
            ""outputs"": [""stdout""],
            ""options"": [""stdin-hyphen""]
        }
    ]
}
".

(** pash_annotations/old_annotations/pr.json *)
Definition old_pr : string := "{
    ""command"": ""pr"",
    ""cases"":
    [
    	{
            ""predicate"":
            {
            	""operator"": ""and"",
            	""operands"":
            	[
            	    {
            		""operator"": ""exists"",
            		""operands"": [""-T, --omit-pagination""]
            	    },
            	    {
            		""operator"": ""!exists"",
            		""operands"": [""integer""],
            		""comment"": ""TODO(@DanielSongShen) Unsure how to express this kind of thing. Want to say: operand does not contain an integer.""
            	    }
            	
            	]
            	
            },
            ""class"": ""stateless"",
            ""inputs"": [""stdin""],
            ""outputs"": [""stdout""]
            
        },
        {
            ""predicate"": ""default"",
            ""class"": ""pure"",
            ""inputs"": [""stdin""],
            ""outputs"": [""stdout""]
        }
    ]
}
".

(** pash_annotations/old_annotations/process_bio_s_line.json *)
Definition old_process_bio_s_line : string := "{
    ""command"": ""process_bio_s_line"",
    ""cases"":
    [
        {
            ""predicate"": ""default"",
            ""class"": ""pure"",
            ""inputs"": [""args[0]""],
            ""outputs"": [""stdout""]
        }
    ],
    ""comment"": ""Used in bio script.""
}
".

(** pash_annotations/old_annotations/ps.json *)
Definition old_ps : string := "{
    ""command"": ""ps"",
    ""cases"":
    [
        {
            ""predicate"": ""default"",
            ""class"": ""stateless"",
            ""inputs"": [""stdin""],
            ""outputs"": [""stdout""]
        }
    ]
}
".

(** pash_annotations/old_annotations/pwd.json *)
Definition old_pwd : string := "{
    ""command"": ""pwd"",
    ""cases"":
    [
        {
            ""predicate"": ""default"",
            ""class"": ""side-effectful"",
            ""inputs"": [],
            ""outputs"": [""stdout""]
        }
    ]
}
".

(** pash_annotations/old_annotations/r_merge.json *)
Definition old_r_merge : string := "{
    ""command"": ""r_merge"",
    ""cases"":
    [
        {
            ""predicate"": ""default"",
            ""class"": ""stateless"",
            ""inputs"": [""args[:]""],
            ""outputs"": [""stdout""]
        }
    ],
    ""options"": [""stdin-hyphen""]
}
".

(** pash_annotations/old_annotations/r_split.json *)
Definition old_r_split : string := "{
    ""command"": ""r_split"",
    ""cases"":
    [
        {
            ""predicate"": ""default"",
            ""class"": ""pure"",
            ""inputs"": [""args[0]""],
            ""outputs"": [""args[2:]""]
        }
    ]
}
".

(** pash_annotations/old_annotations/r_unwrap.json *)
Definition old_r_unwrap : string := "{
    ""command"": ""r_unwrap"",
    ""cases"":
    [
        {
            ""predicate"": ""default"",
            ""class"": ""pure"",
            ""inputs"": [""stdin""],
            ""outputs"": [""stdout""]
        }
    ]
}
".

(** pash_annotations/old_annotations/r_wrap.json *)
Definition old_r_wrap : string := "{
    ""command"": ""r_wrap"",
    ""cases"":
    [
        {
            ""predicate"": ""default"",
            ""class"": ""pure"",
            ""inputs"": [""stdin""],
            ""outputs"": [""stdout""]
        }
    ]
}
".

(** pash_annotations/old_annotations/read.json *)
Definition old_read : string := "{
    ""command"": ""read"",
    ""cases"":
    [
        {
            ""predicate"": ""default"",
            ""class"": ""side-effectful"",
            ""inputs"": [""stdin""],
            ""outputs"": [""stdout""]
        }
    ]
}
".

(** pash_annotations/old_annotations/readelf.json *)
Definition old_readelf : string := "{
    ""command"": ""readelf"",
    ""cases"":
    [
        {
            ""predicate"": ""default"",
            ""class"": ""pure"",
            ""inputs"": [""args[:]""],
            ""outputs"": [""stdout""]
        }
    ]
}
".

(** pash_annotations/old_annotations/remote_read.json *)
Definition old_remote_read : string := "{
    ""command"": ""remote_read.sh"",
    ""cases"":
    [
        {
            ""predicate"": ""default"",
            ""class"": ""pure"",
            ""inputs"": [],
            ""outputs"": [""stdout""]
        }
    ]
}
".

(** pash_annotations/old_annotations/remote_write.json *)
Definition old_remote_write : string := "{
    ""command"": ""remote_write.sh"",
    ""cases"":
    [
        {
            ""predicate"": ""default"",
            ""class"": ""pure"",
            ""inputs"": [""stdin""],
            ""outputs"": [""stdout""]
        }
    ]
}
".

(** pash_annotations/old_annotations/resize.json *)
Definition old_resize : string := "{
    ""command"": ""comm"",
    ""cases"":
    [
        {
            ""predicate"": ""default"",
            ""class"": ""pure"",
            ""inputs"": [""args[:]""],
            ""outputs"": [""stdout""],
            ""options"": [""stdin-hyphen""]
        }
    ]
}
".

(** pash_annotations/old_annotations/rev.json *)
Definition old_rev : string := "{
    ""command"": ""rev"",
    ""cases"":
    [
        {
            ""predicate"": ""default"",
            ""class"": ""stateless"",
            ""inputs"": [""stdin""],
            ""outputs"": [""stdout""]
        }
    ]
}
".

(** pash_annotations/old_annotations/rm.json *)
Definition old_rm : string := "{
    ""command"": ""rm"",
    ""cases"":
    [
        {
            ""predicate"": ""default"",
            ""class"": ""side-effectful"",
            ""inputs"": [""stdin""],
            ""outputs"": [""stdout""]
        }
    ]
}
".

(** pash_annotations/old_annotations/run_tests.json *)
Definition old_run_tests : string := "{
    ""command"": ""run_tests"",
    ""cases"":
    [
        {
            ""predicate"": ""default"",
            ""class"": ""pure"",
            ""inputs"": [""args[0]""],
            ""outputs"": [""stdout""]
        }
    ]
}
".

(** pash_annotations/old_annotations/sed.json *)
Definition old_sed : string := "{
    ""command"": ""sed"",
    ""cases"":
    [
        {
            ""predicate"": ""default"",
            ""class"": ""pure"",
            ""inputs"": [""stdin""],
            ""outputs"": [""stdout""],
			""comment"": ""Always stateless unless NUMBERd or NUMBERq is present. Maybe introduce REGEX? Need to introduce operator starts_with (if starts with s then is stateless). For now it is OK since it is overriden in command-categories.py""
        }
    ]
}
".

(** pash_annotations/old_annotations/seq.json *)
Definition old_seq : string := "{
    ""command"": ""seq"",
    ""cases"":
    [
        {
            ""predicate"": ""default"",
            ""class"": ""pure"",
            ""inputs"": [],
            ""outputs"": [""stdout""]
        }
    ]
}
".

(** pash_annotations/old_annotations/set.json *)
Definition old_set : string := "{
    ""command"": ""set"",
    ""cases"":
    [
        {
            ""predicate"": ""default"",
            ""class"": ""side-effectful"",
            ""inputs"": [""stdin""],
            ""outputs"": [""stdout""]
        }
    ]
}
".

(** pash_annotations/old_annotations/set_diff.json *)
Definition old_set_diff : string := "{
    ""command"": ""set_diff"",
    ""cases"":
    [
        {
            ""predicate"": ""default"",
            ""class"": ""stateless"",
            ""inputs"":
            {
                ""configuration"": [""args[0]""],
                ""standard"": [""stdin""]
            },
            ""outputs"": [""stdout""]
        }
    ]
}
".

(** pash_annotations/old_annotations/sha256sum.json *)
Definition old_sha256sum : string := "{
    ""command"": ""sha256sum"",
    ""cases"":
    [
        {
            ""predicate"": ""default"",
            ""class"": ""non-pure"",
            ""inputs"": [""stdin""],
            ""outputs"": [""stdout""]
        }
    ]
}
".

(** pash_annotations/old_annotations/shuf.json *)
Definition old_shuf : string := "{
    ""command"": ""shuf"",
    ""cases"":
    [
        {
            ""predicate"": ""default"",
            ""class"": ""stateless"",
            ""inputs"": [""stdin""],
            ""outputs"": [""stdout""]
        }
    ]
}
".

(** pash_annotations/old_annotations/sort.json *)
Definition old_sort : string := "{
    ""command"": ""sort"",
    ""cases"":
    [
        {
            ""predicate"":
            {
                ""operator"": ""exists"",
                ""operands"": [""-m""]
            },
            ""class"": ""pure"",
            ""inputs"": [""args[:]""],
            ""outputs"": [""stdout""]
        },
        {
            ""predicate"": ""default"",
            ""class"": ""parallelizable_pure"",
            ""properties"": [""commutative""],
            ""agg"": ""sort"",
            ""inputs"": [""stdin""],
            ""outputs"": [""stdout""],
            ""aggregator"":
            {
                ""name"": ""sort"",
                ""options"": [""-m""]
            }
        }
    ],
    ""comment"": ""TODO: This is not correct. To assign arguments correctly, we need to check if there is any file argument. If not, then we can read from stdin, otherwise we have to read from input files.""
}
".

(** pash_annotations/old_annotations/split.json *)
Definition old_split : string := "{
    ""command"": ""split"",
    ""cases"":
    [
        {
            ""predicate"": ""default"",
            ""class"": ""side-effectful"",
            ""inputs"": [""args[:]""],
            ""outputs"": [""stdout""]
        }
    ]
}
".

(** pash_annotations/old_annotations/stem-words.json *)
Definition old_stem_words : string := "{
    ""command"": ""stem-words.js"",
    ""cases"":
    [
        {
            ""predicate"": ""default"",
            ""class"": ""stateless"",
            ""inputs"": [""stdin""],
            ""outputs"": [""stdout""]
        }
    ]
}

".

(** pash_annotations/old_annotations/tac.json *)
Definition old_tac : string := "{
    ""command"": ""tac"",
    ""aggregate"": ""$PASH_TOP/runtime/agg/py/tac.py"",
    ""cases"":
    [
        {
            ""predicate"": ""default"",
            ""class"": ""stateless"",
            ""inputs"": [""args[:]""],
            ""outputs"": [""stdout""]
        }
    ],
    ""options"": [""stdin-hyphen""]
}
".

(** pash_annotations/old_annotations/tail.json *)
Definition old_tail : string := "{
    ""command"": ""tail"",
    ""aggregate"": ""$PASH_TOP/runtime/agg/py/tail.py"",
    ""cases"":
    [
        {
            ""predicate"": ""default"",
            ""class"": ""pure"",
            ""inputs"": [""stdin""],
            ""outputs"": [""stdout""]
        }
    ]
}
".

(** pash_annotations/old_annotations/tee.json *)
Definition old_tee : string := "{
    ""command"": ""tee"",
    ""cases"":
    [
        {
            ""predicate"": ""default"",
            ""class"": ""pure"",
            ""inputs"": [""stdin""],
            ""outputs"": [""stdout"", ""args[:]""]
        }
    ]
}
".

(** pash_annotations/old_annotations/test_one.json *)
Definition old_test_one : string := "{
    ""command"": ""test_one"",
    ""cases"":
    [
        {
            ""predicate"": ""default"",
            ""class"": ""parallelizable_pure"",
            ""inputs"": [""stdin""],
            ""outputs"": [""stdout""],
            ""aggregator"":
            {
                ""path"": ""runtime/agg/opt/concat.sh""
            }
        }
    ]
}
".

(** pash_annotations/old_annotations/test_two.json *)
Definition old_test_two : string := "{
    ""command"": ""test_two"",
    ""cases"":
    [
        {
            ""predicate"": ""default"",
            ""class"": ""parallelizable_pure"",
            ""inputs"": [""stdin""],
            ""outputs"": [""stdout""],
            ""aggregator"":
            {
                ""path"": ""runtime/agg/py/cat.py""
            }
        }
    ]
}

".

(** pash_annotations/old_annotations/test_uniq_1.json *)
Definition old_test_uniq_1 : string := "{
    ""command"": ""test_uniq_1"",
    ""cases"":
    [
        {
            ""predicate"": ""default"",
            ""class"": ""parallelizable_pure"",
            ""inputs"": [""stdin""],
            ""outputs"": [""stdout""],
            ""aggregator"":
            {
                ""path"": ""runtime/agg/bin/uniq""
            }
        }
    ]
}

".

(** pash_annotations/old_annotations/test_uniq_2.json *)
Definition old_test_uniq_2 : string := "{
    ""command"": ""test_uniq_2"",
    ""cases"":
    [
        {
            ""predicate"": ""default"",
            ""class"": ""parallelizable_pure"",
            ""inputs"": [""stdin""],
            ""outputs"": [""stdout""],
            ""aggregator"":
            {
                ""path"": ""runtime/agg/bin/uniq"",
                ""options"": [""-c""]
            }
        }
    ]
}

".

(** pash_annotations/old_annotations/tr.json *)
Definition old_tr : string := "{
    ""command"": ""tr"",
    ""cases"":
    [
        {
            ""predicate"":
            {
                ""operator"": ""exists"",
                ""operands"": [""-d"",
                             ""--delete""]
            },
            ""class"": ""stateless"",
            ""comment"": ""KK (pure): Not sure if this should be pure or stateless"",
            ""inputs"": [""stdin""],
            ""outputs"": [""stdout""]
        },
        {
            ""predicate"":
            {
                ""operator"": ""exists"",
                ""operands"": [""-s"",
                             ""--squeeze-repeats""]
            },
            ""class"": ""pure"",
            ""comment"": ""This is too conservative since it only holds if the second argument to -s is \n."",
            ""TODO"": ""In order for this to work, we need to fix annotation interpreter to check for concatenated short options. For now it works in a custom function."",
            ""inputs"": [""stdin""],
            ""outputs"": [""stdout""]
        },
        {
            ""predicate"": ""default"",
            ""class"": ""stateless"",
            ""inputs"": [""stdin""],
            ""outputs"": [""stdout""]
        }
    ]
}
".

(** pash_annotations/old_annotations/trigrams_aux.json *)
Definition old_trigrams_aux : string := "{
    ""command"": ""trigrams_aux"",
    ""cases"":
    [
        {
            ""predicate"": ""default"",
            ""class"": ""pure"",
            ""inputs"": [""stdin""],
            ""outputs"": [""stdout""]
        }
    ]
}

".

(** pash_annotations/old_annotations/uniq.json *)
Definition old_uniq : string := "{
    ""command"": ""uniq"",
    ""aggregate"": ""$PASH_TOP/runtime/agg/py/uniq.py"",
    ""cases"":
    [
        {
            ""predicate"": ""default"",
            ""class"": ""pure"",
            ""inputs"": [""stdin""],
            ""outputs"": [""stdout""]
        }
    ]
}

".

(** pash_annotations/old_annotations/wc.json *)
Definition old_wc : string := "{
    ""command"": ""wc"",
    ""aggregate"": ""$PASH_TOP/runtime/agg/py/wc.py"",
    ""cases"":
    [
        {
            ""predicate"": ""default"",
            ""class"": ""pure"",
            ""inputs"": [""stdin""],
            ""outputs"": [""stdout""]
        }
    ]
}
".

(** pash_annotations/old_annotations/xargs.json *)
Definition old_xargs : string := "{
    ""command"": ""xargs"",
    ""cases"":
    [
        {
            ""predicate"": 
            {
                ""operator"": ""value"",
                ""operands"": [""-L"", ""1""]
            },
            ""class"": ""stateless"",
            ""inputs"": [""stdin""],
            ""outputs"": [""stdout""],
            ""options"": [""resolve_at_runtime""],
			""comment"": ""TODO: Implement the 'resolve_at_runtime' option by finding the category based on  the arguments at runtime.""
        },
        {
            ""predicate"": ""default"",
            ""class"": ""stateless"",
            ""inputs"": [""stdin""],
            ""outputs"": [""stdout""],
            ""options"": [""resolve_at_runtime""],
			""comment"": ""TODO: Implement the 'resolve_at_runtime' option by finding the category based on  the arguments at runtime.""
        }
    ]
}
".

(** pash_annotations/old_annotations/xxd.json *)
Definition old_xxd : string := "{
    ""command"": ""readelf"",
    ""cases"":
    [
        {
            ""predicate"": ""default"",
            ""class"": ""pure"",
            ""inputs"": [""args[:]""],
            ""outputs"": [""stdout""]
        }
    ]
}
".

(** The files of the directory *)
Definition old_texts : list (string * string) :=
  [("alt_bigram_aux_reduce.json", old_alt_bigram_aux_reduce);
   ("alt_bigrams_aux.json", old_alt_bigrams_aux);
   ("auto-split.json", old_auto_split);
   ("awk.json", old_awk);
   ("bc.json", old_bc);
   ("bigram_aux_map.json", old_bigram_aux_map);
   ("bigram_aux_reduce.json", old_bigram_aux_reduce);
   ("bigrams_aux.json", old_bigrams_aux);
   ("cat.json", old_cat);
   ("chmod.json", old_chmod);
   ("col.json", old_col);
   ("comm.json", old_comm);
   ("convert.json", old_convert);
   ("custom_sort.json", old_custom_sort);
   ("custom_tr.json", old_custom_tr);
   ("cut.json", old_cut);
   ("date.json", old_date);
   ("dd.json", old_dd);
   ("dfs_split_reader.json", old_dfs_split_reader);
   ("dgsh_tee.json", old_dgsh_tee);
   ("diff.json", old_diff);
   ("eager-no-task-par.json", old_eager_no_task_par);
   ("eager.json", old_eager);
   ("echo.json", old_echo);
   ("export.json", old_export);
   ("extract_text.json", old_extract_text);
   ("ffmpeg.json", old_ffmpeg);
   ("find.json", old_find);
   ("fmt.json", old_fmt);
   ("grep.json", old_grep);
   ("groff.json", old_groff);
   ("gunzip.json", old_gunzip);
   ("gzip.json", old_gzip);
   ("hdfs.json", old_hdfs);
   ("head.json", old_head);
   ("history.json", old_history);
   ("iconv.json", old_iconv);
   ("jobs.json", old_jobs);
   ("ls.json", old_ls);
   ("mkfifo.json", old_mkfifo);
   ("mktemp.json", old_mktemp);
   ("multiply.json", old_multiply);
   ("nc.json", old_nc);
   ("nl.json", old_nl);
   ("package_build_aux.json", old_package_build_aux);
   ("pandoc.json", old_pandoc);
   ("paste.json", old_paste);
   ("pr.json", old_pr);
   ("process_bio_s_line.json", old_process_bio_s_line);
   ("ps.json", old_ps);
   ("pwd.json", old_pwd);
   ("r_merge.json", old_r_merge);
   ("r_split.json", old_r_split);
   ("r_unwrap.json", old_r_unwrap);
   ("r_wrap.json", old_r_wrap);
   ("read.json", old_read);
   ("readelf.json", old_readelf);
   ("remote_read.json", old_remote_read);
   ("remote_write.json", old_remote_write);
   ("resize.json", old_resize);
   ("rev.json", old_rev);
   ("rm.json", old_rm);
   ("run_tests.json", old_run_tests);
   ("sed.json", old_sed);
   ("seq.json", old_seq);
   ("set.json", old_set);
   ("set_diff.json", old_set_diff);
   ("sha256sum.json", old_sha256sum);
   ("shuf.json", old_shuf);
   ("sort.json", old_sort);
   ("split.json", old_split);
   ("stem-words.json", old_stem_words);
   ("tac.json", old_tac);
   ("tail.json", old_tail);
   ("tee.json", old_tee);
   ("test_one.json", old_test_one);
   ("test_two.json", old_test_two);
   ("test_uniq_1.json", old_test_uniq_1);
   ("test_uniq_2.json", old_test_uniq_2);
   ("tr.json", old_tr);
   ("trigrams_aux.json", old_trigrams_aux);
   ("uniq.json", old_uniq);
   ("wc.json", old_wc);
   ("xargs.json", old_xargs);
   ("xxd.json", old_xxd)].
