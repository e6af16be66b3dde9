(** * The unit tests of the repository, as checks of the model
    GENERATED by tools/gen_tests.py from pash_annotations/parser/tests and
    pash_annotations/annotation_generation/tests; do not edit.
    These are tests of the model, not theorems: they check on the examples of the authors of the
    code that the model does what the code does. *)
Require Import Verif.PyBase Verif.JsonData Verif.ShippedData Verif.Parser Verif.Access Verif.IOInfo Verif.IOGen Verif.IOVars
  Verif.Transformers Verif.ParaTypes Verif.ParaGen.

Definition is_some {A} (x : option A) : bool := match x with Some _ => true | None => false end.
Definition tested_io_info (inv : invocation) : option io_info := get_input_output_info shipped_dir inv.
Definition tested_io (inv : invocation) : option invocation_io :=
  match tested_io_info inv with Some i => except_none (apply_io_info i inv) | None => None end.
Definition tested_para_info (inv : invocation) : option para_info := get_parallelizability_info shipped_dir inv.
Definition tested_parallelizer (inv : invocation) (n : nat) : option parallelizer :=
  match tested_para_info inv with Some i => nth_error (parallelizer_list i) n | None => None end.

(** pash_annotations/parser/tests/test_parser_cat.py, test_cat_1 *)
Example parser_cat_test_cat_1 :
  parse shipped_dir "cat -b -e in1.txt in2.txt" = Ok (mkInv "cat" [Flag "-b"; Flag "-e"] ["in1.txt"; "in2.txt"]).
Proof. vm_compute. repeat split; eexists; split; reflexivity. Qed.

(** pash_annotations/parser/tests/test_parser_cat.py, test_cat_2 *)
Example parser_cat_test_cat_2 :
  parse shipped_dir "cat -be  in1.txt in2.txt" = Ok (mkInv "cat" [Flag "-b"; Flag "-e"] ["in1.txt"; "in2.txt"]).
Proof. vm_compute. repeat split; eexists; split; reflexivity. Qed.

(** pash_annotations/parser/tests/test_parser_empty_str.py, test_empty_str_1 *)
Example parser_empty_str_test_empty_str_1 :
  parse shipped_dir "echo """"" = Ok (mkInv "echo" [] [""]).
Proof. vm_compute. repeat split; eexists; split; reflexivity. Qed.

(** pash_annotations/parser/tests/test_parser_empty_str.py, test_empty_str_2 *)
Example parser_empty_str_test_empty_str_2 :
  parse shipped_dir "cat """"" = Ok (mkInv "cat" [] [""]).
Proof. vm_compute. repeat split; eexists; split; reflexivity. Qed.

(** pash_annotations/parser/tests/test_parser_grep.py, test_grep_1 *)
Example parser_grep_test_grep_1 :
  parse shipped_dir "grep -e '^\s*def' -m 3 -n test.py" = Ok (mkInv "grep" [Option_ "-e" "^\s*def"; Option_ "-m" "3"; Flag "-n"] ["test.py"]).
Proof. vm_compute. repeat split; eexists; split; reflexivity. Qed.

(** pash_annotations/parser/tests/test_parser_sort.py, test_sort_1 *)
Example parser_sort_test_sort_1 :
  parse shipped_dir "sort in1.txt in2.txt" = Ok (mkInv "sort" [] ["in1.txt"; "in2.txt"]).
Proof. vm_compute. repeat split; eexists; split; reflexivity. Qed.

(** pash_annotations/parser/tests/test_parser_sort.py, test_sort_2 *)
Example parser_sort_test_sort_2 :
  parse shipped_dir "sort -b -o result.txt in1.txt in2.txt" = Ok (mkInv "sort" [Flag "-b"; Option_ "-o" "result.txt"] ["in1.txt"; "in2.txt"]).
Proof. vm_compute. repeat split; eexists; split; reflexivity. Qed.

(** pash_annotations/parser/tests/test_parser_sort.py, test_sort_3 *)
Example parser_sort_test_sort_3 :
  parse shipped_dir "sort -b --output result.txt in1.txt in2.txt" = Ok (mkInv "sort" [Flag "-b"; Option_ "-o" "result.txt"] ["in1.txt"; "in2.txt"]).
Proof. vm_compute. repeat split; eexists; split; reflexivity. Qed.

(** pash_annotations/annotation_generation/tests/test_ann_gen_cat.py, test_cat_1 *)
Example ann_gen_cat_test_cat_1 :
  let inv := (mkInv "cat" [Flag "-b"; Flag "-e"] ["in1.txt"; "in2.txt"]) in
  is_some (tested_io_info inv) = true /\
  option_map (fun c => List.length (get_operands_with_config_input c)) (tested_io inv) = Some 0 /\
  option_map (fun c => List.length (get_operands_with_stream_input c)) (tested_io inv) = Some 2 /\
  option_map (fun c => List.length (get_operands_with_stream_output c)) (tested_io inv) = Some 0 /\
  option_map io_implicit_input (tested_io inv) = Some None /\
  option_map io_implicit_output (tested_io inv) = Some (Some (mkRes (StdDescriptor STDOUT) STREAM_OUTPUT)) /\
  is_some (tested_para_info inv) = false.
Proof. vm_compute. repeat split; eexists; split; reflexivity. Qed.

(** pash_annotations/annotation_generation/tests/test_ann_gen_cat.py, test_cat_2 *)
Example ann_gen_cat_test_cat_2 :
  let inv := (mkInv "cat" [] ["in1.txt"; "-"; "in2.txt"]) in
  is_some (tested_io_info inv) = true /\
  option_map (fun c => List.length (get_operands_with_config_input c)) (tested_io inv) = Some 0 /\
  option_map (fun c => List.length (get_operands_with_stream_input c)) (tested_io inv) = Some 3 /\
  option_map (fun c => List.length (get_operands_with_stream_output c)) (tested_io inv) = Some 0 /\
  option_map io_implicit_input (tested_io inv) = Some None /\
  option_map io_implicit_output (tested_io inv) = Some (Some (mkRes (StdDescriptor STDOUT) STREAM_OUTPUT)) /\
  is_some (tested_para_info inv) = false.
Proof. vm_compute. repeat split; eexists; split; reflexivity. Qed.

(** pash_annotations/annotation_generation/tests/test_ann_gen_cat.py, test_cat_3 *)
Example ann_gen_cat_test_cat_3 :
  let inv := (mkInv "cat" [Flag "-n"] ["in1.txt"; "in2.txt"]) in
  is_some (tested_io_info inv) = true /\
  option_map (fun c => List.length (get_operands_with_config_input c)) (tested_io inv) = Some 0 /\
  option_map (fun c => List.length (get_operands_with_stream_input c)) (tested_io inv) = Some 2 /\
  option_map (fun c => List.length (get_operands_with_stream_output c)) (tested_io inv) = Some 0 /\
  option_map io_implicit_input (tested_io inv) = Some None /\
  option_map io_implicit_output (tested_io inv) = Some (Some (mkRes (StdDescriptor STDOUT) STREAM_OUTPUT)) /\
  is_some (tested_para_info inv) = false.
Proof. vm_compute. repeat split; eexists; split; reflexivity. Qed.

(** pash_annotations/annotation_generation/tests/test_ann_gen_cat.py, test_cat_4 *)
Example ann_gen_cat_test_cat_4 :
  let inv := (mkInv "cat" [Flag "-n"; Flag "-s"] ["in1.txt"; "in2.txt"]) in
  is_some (tested_io_info inv) = true /\
  option_map (fun c => List.length (get_operands_with_config_input c)) (tested_io inv) = Some 0 /\
  option_map (fun c => List.length (get_operands_with_stream_input c)) (tested_io inv) = Some 2 /\
  option_map (fun c => List.length (get_operands_with_stream_output c)) (tested_io inv) = Some 0 /\
  option_map io_implicit_input (tested_io inv) = Some None /\
  option_map io_implicit_output (tested_io inv) = Some (Some (mkRes (StdDescriptor STDOUT) STREAM_OUTPUT)) /\
  is_some (tested_para_info inv) = false.
Proof. vm_compute. repeat split; eexists; split; reflexivity. Qed.

(** pash_annotations/annotation_generation/tests/test_ann_gen_cat.py, test_cat_5 *)
Example ann_gen_cat_test_cat_5 :
  let inv := (mkInv "cat" [Flag "-s"] ["in1.txt"; "in2.txt"]) in
  is_some (tested_io_info inv) = true /\
  option_map (fun c => List.length (get_operands_with_config_input c)) (tested_io inv) = Some 0 /\
  option_map (fun c => List.length (get_operands_with_stream_input c)) (tested_io inv) = Some 2 /\
  option_map (fun c => List.length (get_operands_with_stream_output c)) (tested_io inv) = Some 0 /\
  option_map io_implicit_input (tested_io inv) = Some None /\
  option_map io_implicit_output (tested_io inv) = Some (Some (mkRes (StdDescriptor STDOUT) STREAM_OUTPUT)) /\
  is_some (tested_para_info inv) = false.
Proof. vm_compute. repeat split; eexists; split; reflexivity. Qed.

(** pash_annotations/annotation_generation/tests/test_ann_gen_comm.py, test_comm_1 *)
Example ann_gen_comm_test_comm_1 :
  let inv := (mkInv "comm" [Flag "-1"; Flag "-2"] ["tocomm1.txt"; "tocomm2.txt"]) in
  is_some (tested_io_info inv) = true /\
  option_map (fun c => List.length (get_operands_with_config_input c)) (tested_io inv) = Some 0 /\
  option_map (fun c => List.length (get_operands_with_stream_input c)) (tested_io inv) = Some 2 /\
  option_map (fun c => List.length (get_operands_with_stream_output c)) (tested_io inv) = Some 0 /\
  option_map io_implicit_input (tested_io inv) = Some None /\
  option_map io_implicit_output (tested_io inv) = Some (Some (mkRes (StdDescriptor STDOUT) STREAM_OUTPUT)) /\
  is_some (tested_para_info inv) = false.
Proof. vm_compute. repeat split; eexists; split; reflexivity. Qed.

(** pash_annotations/annotation_generation/tests/test_ann_gen_comm.py, test_comm_2 *)
Example ann_gen_comm_test_comm_2 :
  let inv := (mkInv "comm" [] ["tocomm1.txt"; "tocomm2.txt"; "tocomm3.txt"]) in
  is_some (tested_io_info inv) = false.
Proof. vm_compute. repeat split; eexists; split; reflexivity. Qed.

(** pash_annotations/annotation_generation/tests/test_ann_gen_cut.py, test_cut_1 *)
Example ann_gen_cut_test_cut_1 :
  let inv := (mkInv "cut" [] ["in1.txt"; "in2.txt"]) in
  is_some (tested_io_info inv) = true /\
  option_map (fun c => List.length (get_operands_with_config_input c)) (tested_io inv) = Some 0 /\
  option_map (fun c => List.length (get_operands_with_stream_input c)) (tested_io inv) = Some 2 /\
  option_map (fun c => List.length (get_operands_with_stream_output c)) (tested_io inv) = Some 0 /\
  option_map io_implicit_input (tested_io inv) = Some None /\
  option_map io_implicit_output (tested_io inv) = Some (Some (mkRes (StdDescriptor STDOUT) STREAM_OUTPUT)) /\
  is_some (tested_para_info inv) = true /\ option_map (fun i => List.length (parallelizer_list i)) (tested_para_info inv) = Some 2 /\
  option_map p_splitter (tested_parallelizer inv 0) = Some CONSEC_CHUNKS /\
  (exists m, make_mapper_spec_seq = Ok m /\ option_map p_mapper (tested_parallelizer inv 0) = Some m) /\
  option_map p_aggregator (tested_parallelizer inv 0) = Some make_aggregator_spec_concatenate /\
  option_map p_splitter (tested_parallelizer inv 1) = Some ROUND_ROBIN_PLAIN /\
  (exists m, make_mapper_spec_seq = Ok m /\ option_map p_mapper (tested_parallelizer inv 1) = Some m) /\
  option_map p_aggregator (tested_parallelizer inv 1) = Some make_aggregator_spec_concatenate.
Proof. vm_compute. repeat split; eexists; split; reflexivity. Qed.

(** pash_annotations/annotation_generation/tests/test_ann_gen_cut.py, test_cut_2 *)
Example ann_gen_cut_test_cut_2 :
  let inv := (mkInv "cut" [Flag "-z"] []) in
  is_some (tested_io_info inv) = true /\
  option_map (fun c => List.length (get_operands_with_config_input c)) (tested_io inv) = Some 0 /\
  option_map (fun c => List.length (get_operands_with_stream_input c)) (tested_io inv) = Some 0 /\
  option_map (fun c => List.length (get_operands_with_stream_output c)) (tested_io inv) = Some 0 /\
  option_map io_implicit_input (tested_io inv) = Some (Some (mkRes (StdDescriptor STDIN) STREAM_INPUT)) /\
  option_map io_implicit_output (tested_io inv) = Some (Some (mkRes (StdDescriptor STDOUT) STREAM_OUTPUT)) /\
  is_some (tested_para_info inv) = true /\ option_map (fun i => List.length (parallelizer_list i)) (tested_para_info inv) = Some 2 /\
  option_map p_splitter (tested_parallelizer inv 0) = Some CONSEC_CHUNKS /\
  (exists m, make_mapper_spec_seq = Ok m /\ option_map p_mapper (tested_parallelizer inv 0) = Some m) /\
  option_map p_aggregator (tested_parallelizer inv 0) = Some make_aggregator_spec_concatenate /\
  option_map p_splitter (tested_parallelizer inv 1) = Some ROUND_ROBIN_PLAIN /\
  (exists m, make_mapper_spec_seq = Ok m /\ option_map p_mapper (tested_parallelizer inv 1) = Some m) /\
  option_map p_aggregator (tested_parallelizer inv 1) = Some make_aggregator_spec_concatenate.
Proof. vm_compute. repeat split; eexists; split; reflexivity. Qed.

(** pash_annotations/annotation_generation/tests/test_ann_gen_grep.py, test_grep_1 *)
Example ann_gen_grep_test_grep_1 :
  let inv := (mkInv "grep" [Flag "-L"; Option_ "-f" "dict.txt"] ["in1.txt"; "in2.txt"]) in
  is_some (tested_io_info inv) = true /\
  option_map (fun c => List.length (get_operands_with_config_input c)) (tested_io inv) = Some 0 /\
  option_map (fun c => List.length (get_operands_with_stream_input c)) (tested_io inv) = Some 2 /\
  option_map (fun c => List.length (get_operands_with_stream_output c)) (tested_io inv) = Some 0 /\
  option_map io_implicit_input (tested_io inv) = Some None /\
  option_map io_implicit_output (tested_io inv) = Some (Some (mkRes (StdDescriptor STDOUT) STREAM_OUTPUT)) /\
  is_some (tested_para_info inv) = true /\ option_map (fun i => List.length (parallelizer_list i)) (tested_para_info inv) = Some 0.
Proof. vm_compute. repeat split; eexists; split; reflexivity. Qed.

(** pash_annotations/annotation_generation/tests/test_ann_gen_grep.py, test_grep_2 *)
Example ann_gen_grep_test_grep_2 :
  let inv := (mkInv "grep" [Option_ "-f" "dict.txt"; Option_ "-e" "*"; Flag "-b"] ["in1.txt"; "in2.txt"]) in
  is_some (tested_io_info inv) = true /\
  option_map (fun c => List.length (get_operands_with_config_input c)) (tested_io inv) = Some 0 /\
  option_map (fun c => List.length (get_operands_with_stream_input c)) (tested_io inv) = Some 2 /\
  option_map (fun c => List.length (get_operands_with_stream_output c)) (tested_io inv) = Some 0 /\
  option_map io_implicit_input (tested_io inv) = Some None /\
  option_map io_implicit_output (tested_io inv) = Some (Some (mkRes (StdDescriptor STDOUT) STREAM_OUTPUT)) /\
  is_some (tested_para_info inv) = true /\ option_map (fun i => List.length (parallelizer_list i)) (tested_para_info inv) = Some 0.
Proof. vm_compute. repeat split; eexists; split; reflexivity. Qed.

(** pash_annotations/annotation_generation/tests/test_ann_gen_grep.py, test_grep_3 *)
Example ann_gen_grep_test_grep_3 :
  let inv := (mkInv "grep" [Option_ "-f" "dict.txt"; Option_ "-e" "*"; Option_ "-f" "dict2.txt"] ["in1.txt"; "-"]) in
  is_some (tested_io_info inv) = true /\
  option_map (fun c => List.length (get_operands_with_config_input c)) (tested_io inv) = Some 0 /\
  option_map (fun c => List.length (get_operands_with_stream_input c)) (tested_io inv) = Some 2 /\
  option_map (fun c => List.length (get_operands_with_stream_output c)) (tested_io inv) = Some 0 /\
  option_map io_implicit_input (tested_io inv) = Some None /\
  option_map io_implicit_output (tested_io inv) = Some (Some (mkRes (StdDescriptor STDOUT) STREAM_OUTPUT)) /\
  is_some (tested_para_info inv) = true /\ option_map (fun i => List.length (parallelizer_list i)) (tested_para_info inv) = Some 2 /\
  option_map p_splitter (tested_parallelizer inv 0) = Some CONSEC_CHUNKS /\
  (exists m, make_mapper_spec_seq = Ok m /\ option_map p_mapper (tested_parallelizer inv 0) = Some m) /\
  option_map p_aggregator (tested_parallelizer inv 0) = Some make_aggregator_spec_concatenate /\
  option_map p_splitter (tested_parallelizer inv 1) = Some ROUND_ROBIN_PLAIN /\
  (exists m, make_mapper_spec_seq = Ok m /\ option_map p_mapper (tested_parallelizer inv 1) = Some m) /\
  option_map p_aggregator (tested_parallelizer inv 1) = Some make_aggregator_spec_concatenate.
Proof. vm_compute. repeat split; eexists; split; reflexivity. Qed.

(** pash_annotations/annotation_generation/tests/test_ann_gen_grep.py, test_grep_4 *)
Example ann_gen_grep_test_grep_4 :
  let inv := (mkInv "grep" [Option_ "-f" "dict.txt"; Option_ "-e" "*"; Option_ "-f" "dict2.txt"; Flag "-n"; Flag "-b"] ["in1.txt"; "in2.txt"; "in3.txt"]) in
  is_some (tested_io_info inv) = true /\
  option_map (fun c => List.length (get_operands_with_config_input c)) (tested_io inv) = Some 0 /\
  option_map (fun c => List.length (get_operands_with_stream_input c)) (tested_io inv) = Some 3 /\
  option_map (fun c => List.length (get_operands_with_stream_output c)) (tested_io inv) = Some 0 /\
  option_map io_implicit_input (tested_io inv) = Some None /\
  option_map io_implicit_output (tested_io inv) = Some (Some (mkRes (StdDescriptor STDOUT) STREAM_OUTPUT)) /\
  is_some (tested_para_info inv) = true /\ option_map (fun i => List.length (parallelizer_list i)) (tested_para_info inv) = Some 0.
Proof. vm_compute. repeat split; eexists; split; reflexivity. Qed.

(** pash_annotations/annotation_generation/tests/test_ann_gen_grep.py, test_grep_5 *)
Example ann_gen_grep_test_grep_5 :
  let inv := (mkInv "grep" [Flag "-q"; Flag "-s"] ["*"; "in1.txt"; "in2.txt"]) in
  is_some (tested_io_info inv) = true /\
  option_map (fun c => List.length (get_operands_with_config_input c)) (tested_io inv) = Some 1 /\
  option_map (fun c => List.length (get_operands_with_stream_input c)) (tested_io inv) = Some 2 /\
  option_map (fun c => List.length (get_operands_with_stream_output c)) (tested_io inv) = Some 0 /\
  option_map io_implicit_input (tested_io inv) = Some None /\
  option_map io_implicit_output (tested_io inv) = Some None /\
  is_some (tested_para_info inv) = true /\ option_map (fun i => List.length (parallelizer_list i)) (tested_para_info inv) = Some 0.
Proof. vm_compute. repeat split; eexists; split; reflexivity. Qed.

(** pash_annotations/annotation_generation/tests/test_ann_gen_head.py, test_head_1 *)
Example ann_gen_head_test_head_1 :
  let inv := (mkInv "head" [Flag "-q"] ["in1.txt"; "in2.txt"]) in
  is_some (tested_io_info inv) = true /\
  option_map (fun c => List.length (get_operands_with_config_input c)) (tested_io inv) = Some 0 /\
  option_map (fun c => List.length (get_operands_with_stream_input c)) (tested_io inv) = Some 2 /\
  option_map (fun c => List.length (get_operands_with_stream_output c)) (tested_io inv) = Some 0 /\
  option_map io_implicit_input (tested_io inv) = Some None /\
  option_map io_implicit_output (tested_io inv) = Some (Some (mkRes (StdDescriptor STDOUT) STREAM_OUTPUT)) /\
  is_some (tested_para_info inv) = false.
Proof. vm_compute. repeat split; eexists; split; reflexivity. Qed.

(** pash_annotations/annotation_generation/tests/test_ann_gen_head.py, test_head_2 *)
Example ann_gen_head_test_head_2 :
  let inv := (mkInv "head" [Flag "--version"] ["in1.txt"; "-"; "in2.txt"]) in
  is_some (tested_io_info inv) = true /\
  option_map (fun c => List.length (get_operands_with_config_input c)) (tested_io inv) = Some 0 /\
  option_map (fun c => List.length (get_operands_with_stream_input c)) (tested_io inv) = Some 3 /\
  option_map (fun c => List.length (get_operands_with_stream_output c)) (tested_io inv) = Some 0 /\
  option_map io_implicit_input (tested_io inv) = Some None /\
  option_map io_implicit_output (tested_io inv) = Some (Some (mkRes (StdDescriptor STDOUT) STREAM_OUTPUT)) /\
  is_some (tested_para_info inv) = false.
Proof. vm_compute. repeat split; eexists; split; reflexivity. Qed.

(** pash_annotations/annotation_generation/tests/test_ann_gen_mv.py, test_mv_1 *)
Example ann_gen_mv_test_mv_1 :
  let inv := (mkInv "mv" [Option_ "-t" "dest"] ["tomove1.txt"; "tomove2.txt"]) in
  is_some (tested_io_info inv) = true /\
  option_map (fun c => List.length (get_operands_with_config_input c)) (tested_io inv) = Some 0 /\
  option_map (fun c => List.length (get_operands_with_stream_input c)) (tested_io inv) = Some 0 /\
  option_map (fun c => List.length (get_operands_with_other_input c)) (tested_io inv) = Some 2 /\
  option_map (fun c => List.length (get_operands_with_stream_output c)) (tested_io inv) = Some 0 /\
  option_map (fun c => List.length (get_operands_with_other_output c)) (tested_io inv) = Some 0 /\
  option_map (fun c => List.length (get_options_with_other_output c)) (tested_io inv) = Some 1 /\
  option_map io_implicit_input (tested_io inv) = Some None /\
  option_map io_implicit_output (tested_io inv) = Some None /\
  is_some (tested_para_info inv) = false.
Proof. vm_compute. repeat split; eexists; split; reflexivity. Qed.

(** pash_annotations/annotation_generation/tests/test_ann_gen_mv.py, test_mv_2 *)
Example ann_gen_mv_test_mv_2 :
  let inv := (mkInv "mv" [Flag "-v"] ["tomove1.txt"; "tomove2.txt"; "dest.txt"]) in
  is_some (tested_io_info inv) = true /\
  option_map (fun c => List.length (get_operands_with_config_input c)) (tested_io inv) = Some 0 /\
  option_map (fun c => List.length (get_operands_with_stream_input c)) (tested_io inv) = Some 0 /\
  option_map (fun c => List.length (get_operands_with_other_input c)) (tested_io inv) = Some 2 /\
  option_map (fun c => List.length (get_operands_with_stream_output c)) (tested_io inv) = Some 0 /\
  option_map (fun c => List.length (get_operands_with_other_output c)) (tested_io inv) = Some 1 /\
  option_map io_implicit_input (tested_io inv) = Some None /\
  option_map io_implicit_output (tested_io inv) = Some None /\
  is_some (tested_para_info inv) = false.
Proof. vm_compute. repeat split; eexists; split; reflexivity. Qed.

(** pash_annotations/annotation_generation/tests/test_ann_gen_mv.py, test_mv_3 *)
Example ann_gen_mv_test_mv_3 :
  let inv := (mkInv "mv" [Option_ "-t" "dest1.txt"; Option_ "-t" "dest2.txt"] ["tomove1.txt"; "tomove2.txt"; "dest.txt"]) in
  is_some (tested_io_info inv) = false.
Proof. vm_compute. repeat split; eexists; split; reflexivity. Qed.

(** pash_annotations/annotation_generation/tests/test_ann_gen_sort.py, test_sort_1 *)
Example ann_gen_sort_test_sort_1 :
  let inv := (mkInv "sort" [] ["in1.txt"; "in2.txt"]) in
  is_some (tested_io_info inv) = true /\
  option_map (fun c => List.length (get_operands_with_config_input c)) (tested_io inv) = Some 0 /\
  option_map (fun c => List.length (get_operands_with_stream_input c)) (tested_io inv) = Some 2 /\
  option_map (fun c => List.length (get_operands_with_stream_output c)) (tested_io inv) = Some 0 /\
  option_map io_implicit_input (tested_io inv) = Some None /\
  option_map io_implicit_output (tested_io inv) = Some (Some (mkRes (StdDescriptor STDOUT) STREAM_OUTPUT)) /\
  is_some (tested_para_info inv) = true /\ option_map (fun i => List.length (parallelizer_list i)) (tested_para_info inv) = Some 1 /\
  option_map p_splitter (tested_parallelizer inv 0) = Some CONSEC_CHUNKS /\
  (exists m, make_mapper_spec_seq = Ok m /\ option_map p_mapper (tested_parallelizer inv 0) = Some m) /\
  option_map p_aggregator (tested_parallelizer inv 0) = Some (make_aggregator_spec_from_transformers CUSTOM_2_ARY (Some (TChain [(TFilter ["-b"; "-d"; "-f"; "-g"; "-i"; "-M"; "-h"; "-n"; "-r"; "--sort"; "-V"; "-k"; "-t"]); (TAdd [FFlag "-m"])])) true).
Proof. vm_compute. repeat split; eexists; split; reflexivity. Qed.

(** pash_annotations/annotation_generation/tests/test_ann_gen_sort.py, test_sort_2 *)
Example ann_gen_sort_test_sort_2 :
  let inv := (mkInv "sort" [Flag "-b"; Flag "-f"] []) in
  is_some (tested_io_info inv) = true /\
  option_map (fun c => List.length (get_operands_with_config_input c)) (tested_io inv) = Some 0 /\
  option_map (fun c => List.length (get_operands_with_stream_input c)) (tested_io inv) = Some 0 /\
  option_map (fun c => List.length (get_operands_with_stream_output c)) (tested_io inv) = Some 0 /\
  option_map io_implicit_input (tested_io inv) = Some (Some (mkRes (StdDescriptor STDIN) STREAM_INPUT)) /\
  option_map io_implicit_output (tested_io inv) = Some (Some (mkRes (StdDescriptor STDOUT) STREAM_OUTPUT)) /\
  is_some (tested_para_info inv) = true /\ option_map (fun i => List.length (parallelizer_list i)) (tested_para_info inv) = Some 1 /\
  option_map p_splitter (tested_parallelizer inv 0) = Some CONSEC_CHUNKS.
Proof. vm_compute. repeat split; eexists; split; reflexivity. Qed.

(** pash_annotations/annotation_generation/tests/test_ann_gen_sort.py, test_sort_3 *)
Example ann_gen_sort_test_sort_3 :
  let inv := (mkInv "sort" [Flag "-s"; Option_ "-o" "output.txt"] []) in
  is_some (tested_io_info inv) = true /\
  option_map (fun c => List.length (get_operands_with_config_input c)) (tested_io inv) = Some 0 /\
  option_map (fun c => List.length (get_operands_with_stream_input c)) (tested_io inv) = Some 0 /\
  option_map (fun c => List.length (get_operands_with_stream_output c)) (tested_io inv) = Some 0 /\
  option_map io_implicit_input (tested_io inv) = Some (Some (mkRes (StdDescriptor STDIN) STREAM_INPUT)) /\
  option_map io_implicit_output (tested_io inv) = Some None /\
  is_some (tested_para_info inv) = true /\ option_map (fun i => List.length (parallelizer_list i)) (tested_para_info inv) = Some 0.
Proof. vm_compute. repeat split; eexists; split; reflexivity. Qed.

(** pash_annotations/annotation_generation/tests/test_ann_gen_sort.py, test_sort_5 *)
Example ann_gen_sort_test_sort_5 :
  let inv := (mkInv "sort" [Flag "-m"] []) in
  is_some (tested_io_info inv) = true /\
  option_map (fun c => List.length (get_operands_with_config_input c)) (tested_io inv) = Some 0 /\
  option_map (fun c => List.length (get_operands_with_stream_input c)) (tested_io inv) = Some 0 /\
  option_map (fun c => List.length (get_operands_with_stream_output c)) (tested_io inv) = Some 0 /\
  option_map io_implicit_input (tested_io inv) = Some (Some (mkRes (StdDescriptor STDIN) STREAM_INPUT)) /\
  option_map io_implicit_output (tested_io inv) = Some (Some (mkRes (StdDescriptor STDOUT) STREAM_OUTPUT)) /\
  is_some (tested_para_info inv) = true /\ option_map (fun i => List.length (parallelizer_list i)) (tested_para_info inv) = Some 0.
Proof. vm_compute. repeat split; eexists; split; reflexivity. Qed.

(** pash_annotations/annotation_generation/tests/test_ann_gen_sort.py, test_sort_6 *)
Example ann_gen_sort_test_sort_6 :
  let inv := (mkInv "sort" [Option_ "--files0-from" "input.txt"] []) in
  is_some (tested_io_info inv) = true /\
  option_map (fun c => List.length (get_operands_with_config_input c)) (tested_io inv) = Some 0 /\
  option_map (fun c => List.length (get_operands_with_stream_input c)) (tested_io inv) = Some 0 /\
  option_map (fun c => List.length (get_operands_with_stream_output c)) (tested_io inv) = Some 0 /\
  option_map io_implicit_input (tested_io inv) = Some None /\
  option_map io_implicit_output (tested_io inv) = Some (Some (mkRes (StdDescriptor STDOUT) STREAM_OUTPUT)) /\
  is_some (tested_para_info inv) = true /\ option_map (fun i => List.length (parallelizer_list i)) (tested_para_info inv) = Some 0.
Proof. vm_compute. repeat split; eexists; split; reflexivity. Qed.

(** pash_annotations/annotation_generation/tests/test_ann_gen_tail.py, test_tail_1 *)
Example ann_gen_tail_test_tail_1 :
  let inv := (mkInv "tail" [Flag "-q"] ["in1.txt"; "in2.txt"]) in
  is_some (tested_io_info inv) = true /\
  option_map (fun c => List.length (get_operands_with_config_input c)) (tested_io inv) = Some 0 /\
  option_map (fun c => List.length (get_operands_with_stream_input c)) (tested_io inv) = Some 2 /\
  option_map (fun c => List.length (get_operands_with_stream_output c)) (tested_io inv) = Some 0 /\
  option_map io_implicit_input (tested_io inv) = Some None /\
  option_map io_implicit_output (tested_io inv) = Some (Some (mkRes (StdDescriptor STDOUT) STREAM_OUTPUT)) /\
  is_some (tested_para_info inv) = false.
Proof. vm_compute. repeat split; eexists; split; reflexivity. Qed.

(** pash_annotations/annotation_generation/tests/test_ann_gen_tail.py, test_tail_2 *)
Example ann_gen_tail_test_tail_2 :
  let inv := (mkInv "tail" [Flag "--version"] ["in1.txt"; "-"; "in2.txt"]) in
  is_some (tested_io_info inv) = true /\
  option_map (fun c => List.length (get_operands_with_config_input c)) (tested_io inv) = Some 0 /\
  option_map (fun c => List.length (get_operands_with_stream_input c)) (tested_io inv) = Some 3 /\
  option_map (fun c => List.length (get_operands_with_stream_output c)) (tested_io inv) = Some 0 /\
  option_map io_implicit_input (tested_io inv) = Some None /\
  option_map io_implicit_output (tested_io inv) = Some (Some (mkRes (StdDescriptor STDOUT) STREAM_OUTPUT)) /\
  is_some (tested_para_info inv) = false.
Proof. vm_compute. repeat split; eexists; split; reflexivity. Qed.

(** pash_annotations/annotation_generation/tests/test_ann_gen_tr.py, test_tr_1 *)
Example ann_gen_tr_test_tr_1 :
  let inv := (mkInv "tr" [Flag "-c"; Flag "-s"] ["A-Za-z"; "'\n'"]) in
  is_some (tested_io_info inv) = true /\
  option_map (fun c => List.length (get_operands_with_config_input c)) (tested_io inv) = Some 2 /\
  option_map (fun c => List.length (get_operands_with_stream_input c)) (tested_io inv) = Some 0 /\
  option_map (fun c => List.length (get_operands_with_stream_output c)) (tested_io inv) = Some 0 /\
  option_map io_implicit_input (tested_io inv) = Some (Some (mkRes (StdDescriptor STDIN) STREAM_INPUT)) /\
  option_map io_implicit_output (tested_io inv) = Some (Some (mkRes (StdDescriptor STDOUT) STREAM_OUTPUT)) /\
  is_some (tested_para_info inv) = true /\ option_map (fun i => List.length (parallelizer_list i)) (tested_para_info inv) = Some 2 /\
  option_map p_splitter (tested_parallelizer inv 0) = Some CONSEC_CHUNKS /\
  (exists m, make_mapper_spec_seq = Ok m /\ option_map p_mapper (tested_parallelizer inv 0) = Some m) /\
  option_map p_aggregator (tested_parallelizer inv 0) = Some (make_aggregator_spec_from_string ADJ_LINES_FUNC "PLACEHOLDER: remove first line if empty" false) /\
  option_map p_splitter (tested_parallelizer inv 1) = Some ROUND_ROBIN_PLAIN /\
  (exists m, make_mapper_spec_seq = Ok m /\ option_map p_mapper (tested_parallelizer inv 1) = Some m) /\
  option_map p_aggregator (tested_parallelizer inv 1) = Some (make_aggregator_spec_from_string ADJ_LINES_FUNC "PLACEHOLDER: remove first line if empty" false).
Proof. vm_compute. repeat split; eexists; split; reflexivity. Qed.

(** pash_annotations/annotation_generation/tests/test_ann_gen_tr.py, test_tr_2 *)
Example ann_gen_tr_test_tr_2 :
  let inv := (mkInv "tr" [] ["A-Z"; "a-z"]) in
  is_some (tested_io_info inv) = true /\
  option_map (fun c => List.length (get_operands_with_config_input c)) (tested_io inv) = Some 2 /\
  option_map (fun c => List.length (get_operands_with_stream_input c)) (tested_io inv) = Some 0 /\
  option_map (fun c => List.length (get_operands_with_stream_output c)) (tested_io inv) = Some 0 /\
  option_map io_implicit_input (tested_io inv) = Some (Some (mkRes (StdDescriptor STDIN) STREAM_INPUT)) /\
  option_map io_implicit_output (tested_io inv) = Some (Some (mkRes (StdDescriptor STDOUT) STREAM_OUTPUT)) /\
  is_some (tested_para_info inv) = true /\ option_map (fun i => List.length (parallelizer_list i)) (tested_para_info inv) = Some 2 /\
  option_map p_splitter (tested_parallelizer inv 0) = Some CONSEC_CHUNKS /\
  (exists m, make_mapper_spec_seq = Ok m /\ option_map p_mapper (tested_parallelizer inv 0) = Some m) /\
  option_map p_aggregator (tested_parallelizer inv 0) = Some make_aggregator_spec_concatenate /\
  option_map p_splitter (tested_parallelizer inv 1) = Some ROUND_ROBIN_PLAIN /\
  (exists m, make_mapper_spec_seq = Ok m /\ option_map p_mapper (tested_parallelizer inv 1) = Some m) /\
  option_map p_aggregator (tested_parallelizer inv 1) = Some make_aggregator_spec_concatenate.
Proof. vm_compute. repeat split; eexists; split; reflexivity. Qed.

(** pash_annotations/annotation_generation/tests/test_ann_gen_tr.py, test_tr_3 *)
Example ann_gen_tr_test_tr_3 :
  let inv := (mkInv "tr" [Flag "-d"] ["'[:punct:]'"]) in
  is_some (tested_io_info inv) = true /\
  option_map (fun c => List.length (get_operands_with_config_input c)) (tested_io inv) = Some 1 /\
  option_map (fun c => List.length (get_operands_with_stream_input c)) (tested_io inv) = Some 0 /\
  option_map (fun c => List.length (get_operands_with_stream_output c)) (tested_io inv) = Some 0 /\
  option_map io_implicit_input (tested_io inv) = Some (Some (mkRes (StdDescriptor STDIN) STREAM_INPUT)) /\
  option_map io_implicit_output (tested_io inv) = Some (Some (mkRes (StdDescriptor STDOUT) STREAM_OUTPUT)) /\
  is_some (tested_para_info inv) = true /\ option_map (fun i => List.length (parallelizer_list i)) (tested_para_info inv) = Some 2 /\
  option_map p_splitter (tested_parallelizer inv 0) = Some CONSEC_CHUNKS /\
  (exists m, make_mapper_spec_seq = Ok m /\ option_map p_mapper (tested_parallelizer inv 0) = Some m) /\
  option_map p_aggregator (tested_parallelizer inv 0) = Some make_aggregator_spec_concatenate /\
  option_map p_splitter (tested_parallelizer inv 1) = Some ROUND_ROBIN_PLAIN /\
  (exists m, make_mapper_spec_seq = Ok m /\ option_map p_mapper (tested_parallelizer inv 1) = Some m) /\
  option_map p_aggregator (tested_parallelizer inv 1) = Some make_aggregator_spec_concatenate.
Proof. vm_compute. repeat split; eexists; split; reflexivity. Qed.

(** pash_annotations/annotation_generation/tests/test_ann_gen_tr.py, test_tr_4 *)
Example ann_gen_tr_test_tr_4 :
  let inv := (mkInv "tr" [Flag "-d"] ["'\n'"]) in
  is_some (tested_io_info inv) = true /\
  option_map (fun c => List.length (get_operands_with_config_input c)) (tested_io inv) = Some 1 /\
  option_map (fun c => List.length (get_operands_with_stream_input c)) (tested_io inv) = Some 0 /\
  option_map (fun c => List.length (get_operands_with_stream_output c)) (tested_io inv) = Some 0 /\
  option_map io_implicit_input (tested_io inv) = Some (Some (mkRes (StdDescriptor STDIN) STREAM_INPUT)) /\
  option_map io_implicit_output (tested_io inv) = Some (Some (mkRes (StdDescriptor STDOUT) STREAM_OUTPUT)) /\
  is_some (tested_para_info inv) = true /\ option_map (fun i => List.length (parallelizer_list i)) (tested_para_info inv) = Some 2 /\
  option_map p_splitter (tested_parallelizer inv 0) = Some CONSEC_CHUNKS /\
  (exists m, make_mapper_spec_seq = Ok m /\ option_map p_mapper (tested_parallelizer inv 0) = Some m) /\
  option_map p_aggregator (tested_parallelizer inv 0) = Some make_aggregator_spec_adj_lines_merge /\
  option_map p_splitter (tested_parallelizer inv 1) = Some ROUND_ROBIN_PLAIN /\
  (exists m, make_mapper_spec_seq = Ok m /\ option_map p_mapper (tested_parallelizer inv 1) = Some m) /\
  option_map p_aggregator (tested_parallelizer inv 1) = Some make_aggregator_spec_adj_lines_merge.
Proof. vm_compute. repeat split; eexists; split; reflexivity. Qed.

(** pash_annotations/annotation_generation/tests/test_ann_gen_tr.py, test_tr_5 *)
Example ann_gen_tr_test_tr_5 :
  let inv := (mkInv "tr" [Flag "-c"; Flag "-d"] ["'\n'"]) in
  is_some (tested_io_info inv) = true /\
  option_map (fun c => List.length (get_operands_with_config_input c)) (tested_io inv) = Some 1 /\
  option_map (fun c => List.length (get_operands_with_stream_input c)) (tested_io inv) = Some 0 /\
  option_map (fun c => List.length (get_operands_with_stream_output c)) (tested_io inv) = Some 0 /\
  option_map io_implicit_input (tested_io inv) = Some (Some (mkRes (StdDescriptor STDIN) STREAM_INPUT)) /\
  option_map io_implicit_output (tested_io inv) = Some (Some (mkRes (StdDescriptor STDOUT) STREAM_OUTPUT)) /\
  is_some (tested_para_info inv) = true /\ option_map (fun i => List.length (parallelizer_list i)) (tested_para_info inv) = Some 2 /\
  option_map p_splitter (tested_parallelizer inv 0) = Some CONSEC_CHUNKS /\
  (exists m, make_mapper_spec_seq = Ok m /\ option_map p_mapper (tested_parallelizer inv 0) = Some m) /\
  option_map p_aggregator (tested_parallelizer inv 0) = Some make_aggregator_spec_concatenate /\
  option_map p_splitter (tested_parallelizer inv 1) = Some ROUND_ROBIN_PLAIN /\
  (exists m, make_mapper_spec_seq = Ok m /\ option_map p_mapper (tested_parallelizer inv 1) = Some m) /\
  option_map p_aggregator (tested_parallelizer inv 1) = Some make_aggregator_spec_concatenate.
Proof. vm_compute. repeat split; eexists; split; reflexivity. Qed.

(** pash_annotations/annotation_generation/tests/test_ann_gen_tr.py, test_tr_6 *)
Example ann_gen_tr_test_tr_6 :
  let inv := (mkInv "tr" [Flag "-c"; Flag "-d"] ["A-Z"]) in
  is_some (tested_io_info inv) = true /\
  option_map (fun c => List.length (get_operands_with_config_input c)) (tested_io inv) = Some 1 /\
  option_map (fun c => List.length (get_operands_with_stream_input c)) (tested_io inv) = Some 0 /\
  option_map (fun c => List.length (get_operands_with_stream_output c)) (tested_io inv) = Some 0 /\
  option_map io_implicit_input (tested_io inv) = Some (Some (mkRes (StdDescriptor STDIN) STREAM_INPUT)) /\
  option_map io_implicit_output (tested_io inv) = Some (Some (mkRes (StdDescriptor STDOUT) STREAM_OUTPUT)) /\
  is_some (tested_para_info inv) = true /\ option_map (fun i => List.length (parallelizer_list i)) (tested_para_info inv) = Some 2 /\
  option_map p_splitter (tested_parallelizer inv 0) = Some CONSEC_CHUNKS /\
  (exists m, make_mapper_spec_seq = Ok m /\ option_map p_mapper (tested_parallelizer inv 0) = Some m) /\
  option_map p_aggregator (tested_parallelizer inv 0) = Some make_aggregator_spec_adj_lines_merge /\
  option_map p_splitter (tested_parallelizer inv 1) = Some ROUND_ROBIN_PLAIN /\
  (exists m, make_mapper_spec_seq = Ok m /\ option_map p_mapper (tested_parallelizer inv 1) = Some m) /\
  option_map p_aggregator (tested_parallelizer inv 1) = Some make_aggregator_spec_adj_lines_merge.
Proof. vm_compute. repeat split; eexists; split; reflexivity. Qed.

(** pash_annotations/annotation_generation/tests/test_ann_gen_uniq.py, test_uniq_1 *)
Example ann_gen_uniq_test_uniq_1 :
  let inv := (mkInv "uniq" [Flag "-D"] ["in.txt"; "out.txt"]) in
  is_some (tested_io_info inv) = true /\
  option_map (fun c => List.length (get_operands_with_config_input c)) (tested_io inv) = Some 0 /\
  option_map (fun c => List.length (get_operands_with_stream_input c)) (tested_io inv) = Some 1 /\
  option_map (fun c => List.length (get_operands_with_stream_output c)) (tested_io inv) = Some 1 /\
  option_map io_implicit_input (tested_io inv) = Some None /\
  option_map io_implicit_output (tested_io inv) = Some None /\
  is_some (tested_para_info inv) = true /\ option_map (fun i => List.length (parallelizer_list i)) (tested_para_info inv) = Some 0.
Proof. vm_compute. repeat split; eexists; split; reflexivity. Qed.

(** pash_annotations/annotation_generation/tests/test_ann_gen_uniq.py, test_uniq_2 *)
Example ann_gen_uniq_test_uniq_2 :
  let inv := (mkInv "uniq" [Flag "-c"] []) in
  is_some (tested_io_info inv) = true /\
  option_map (fun c => List.length (get_operands_with_config_input c)) (tested_io inv) = Some 0 /\
  option_map (fun c => List.length (get_operands_with_stream_input c)) (tested_io inv) = Some 0 /\
  option_map (fun c => List.length (get_operands_with_stream_output c)) (tested_io inv) = Some 0 /\
  option_map io_implicit_input (tested_io inv) = Some (Some (mkRes (StdDescriptor STDIN) STREAM_INPUT)) /\
  option_map io_implicit_output (tested_io inv) = Some (Some (mkRes (StdDescriptor STDOUT) STREAM_OUTPUT)) /\
  is_some (tested_para_info inv) = true /\ option_map (fun i => List.length (parallelizer_list i)) (tested_para_info inv) = Some 2 /\
  option_map p_splitter (tested_parallelizer inv 0) = Some CONSEC_CHUNKS /\
  (exists m, make_mapper_spec_seq = Ok m /\ option_map p_mapper (tested_parallelizer inv 0) = Some m) /\
  option_map p_aggregator (tested_parallelizer inv 0) = Some (make_aggregator_spec_from_string ADJ_LINES_FUNC "PLACEHOLDER:uniq_merge_count_uniq" false) /\
  option_map p_splitter (tested_parallelizer inv 1) = Some ROUND_ROBIN_PLAIN /\
  (exists m, make_mapper_spec_seq = Ok m /\ option_map p_mapper (tested_parallelizer inv 1) = Some m) /\
  option_map p_aggregator (tested_parallelizer inv 1) = Some (make_aggregator_spec_from_string ADJ_LINES_FUNC "PLACEHOLDER:uniq_merge_count_uniq" false).
Proof. vm_compute. repeat split; eexists; split; reflexivity. Qed.

(** pash_annotations/annotation_generation/tests/test_ann_gen_uniq.py, test_uniq_3 *)
Example ann_gen_uniq_test_uniq_3 :
  let inv := (mkInv "uniq" [] ["in.txt"; "out.txt"]) in
  is_some (tested_io_info inv) = true /\
  option_map (fun c => List.length (get_operands_with_config_input c)) (tested_io inv) = Some 0 /\
  option_map (fun c => List.length (get_operands_with_stream_input c)) (tested_io inv) = Some 1 /\
  option_map (fun c => List.length (get_operands_with_stream_output c)) (tested_io inv) = Some 1 /\
  option_map io_implicit_input (tested_io inv) = Some None /\
  option_map io_implicit_output (tested_io inv) = Some None /\
  is_some (tested_para_info inv) = true /\ option_map (fun i => List.length (parallelizer_list i)) (tested_para_info inv) = Some 2 /\
  option_map p_splitter (tested_parallelizer inv 0) = Some CONSEC_CHUNKS /\
  (exists m, make_mapper_spec_seq = Ok m /\ option_map p_mapper (tested_parallelizer inv 0) = Some m) /\
  option_map p_aggregator (tested_parallelizer inv 0) = Some make_aggregator_spec_adj_lines_seq /\
  option_map p_splitter (tested_parallelizer inv 1) = Some ROUND_ROBIN_PLAIN /\
  (exists m, make_mapper_spec_seq = Ok m /\ option_map p_mapper (tested_parallelizer inv 1) = Some m) /\
  option_map p_aggregator (tested_parallelizer inv 1) = Some make_aggregator_spec_adj_lines_seq.
Proof. vm_compute. repeat split; eexists; split; reflexivity. Qed.

