(** * The generate_info methods of input/output information, with the identity of objects
    IOGen.v describes the values.  Here each method is written down as a program of library calls
    and conditions, which is run on the heap. *)
Require Import Verif.PyBase Verif.JsonData Verif.Parser Verif.Access Verif.IOInfo Verif.IOGen Verif.IOHelpers Verif.Heap Verif.HeapApply Verif.HeapIOHelpers Verif.HeapTypers.

(** The conditions that occur *)
Inductive test : Type :=
| Contains (names : list string)               (* does_flag_option_list_contain_at_least_one_of, Generator_Interface.py:22-23 *)
| Filtered (names : list string) (n : nat)     (* len(get_flag_option_list_filtered_with(names)) == n, :25-26 *)
| Operands (n : nat)                           (* get_operand_list_length() == n, :28-29 *)
| Not (t : test) | And (t u : test).
Inductive method : Type :=
| Return
| Call (k : io_helper) (m : method)            (* self.k(); m *)
| If (t : test) (m m' : method)
| Fail (e : exn).

(** BasicDatatypes.py:74-75 and 84-85 *)
Definition get_name_h (x : hval) : hm string :=
  run! c := class_of x in
  if is_class c "Flag" then run! n := get_attr x "flag_name" in as_str n
  else if is_class c "Option" then run! n := get_attr x "option_name" in as_str n
  else hthrow GenericException.
(** Generator_Interface.py:25-26, the list as a Coq list: it is only counted *)
Definition get_flag_option_list_filtered_with_h (cmd_inv : hval) (names : list string) : hm (list hval) :=
  run! l := get_attr cmd_inv "flag_option_list" in
  run! vs := items l in
  run! ns := hmap get_name_h vs in
  hret (map fst (filter (fun p => mem (snd p) names) (combine vs ns))).
Fixpoint test_h (cmd_inv : hval) (t : test) : hm bool :=
  match t with
  | Contains names => run! l := get_flag_option_list_filtered_with_h cmd_inv names in hret (Nat.ltb 0 (length l))
  | Filtered names n => run! l := get_flag_option_list_filtered_with_h cmd_inv names in hret (Nat.eqb (length l) n)
  | Operands n => run! l := get_attr cmd_inv "operand_list" in run! vs := items l in hret (Nat.eqb (length vs) n)
  | Not t => run! b := test_h cmd_inv t in hret (negb b)
  | And t u => run! b := test_h cmd_inv t in if b then test_h cmd_inv u else hret false
  end.
Fixpoint run_h (cmd_inv : hval) (m : method) (self : hval) : hm unit :=
  match m with
  | Return => hret tt
  | Call k m => run! _ := call_io_h cmd_inv k self in run_h cmd_inv m self
  | If t m m' => run! b := test_h cmd_inv t in if b then run_h cmd_inv m self else run_h cmd_inv m' self
  | Fail e => hthrow e
  end.

(** InputOutputInfoGeneratorAltBigramAuxReduce.py:6-8 *)
Definition m_alt_bigram_aux_reduce : method := Call AllStreamIn (Call (Stdout true) Return).
(** InputOutputInfoGenerator{AltBigramsAux,BigramsAux,Col,TestOne,TestTwo}.py:5-8 *)
Definition m_stdin_stdout : method := Call (Stdin true) (Call (Stdout true) Return).
(** InputOutputInfoGeneratorAwk.py:6-20, the part below the first line; InputOutputInfoGeneratorGrep.py:24-34 *)
Definition m_script (names : list string) : method :=
  If (Contains names)
    (If (Operands 0) (Call (Stdin true) Return) (Call AllStreamIn Return))
    (Call FirstConfigString (If (Operands 1) (Call (Stdin true) Return) (Call ButFirstStreamIn Return))).
(** InputOutputInfoGeneratorAwk.py:6-20 *)
Definition m_awk : method := Call (Stdout true) (m_script ["-f"]).
(** InputOutputInfoGenerator{Cat,Cut,Head,Tail}.py:12-16 *)
Definition m_cat : method := Call (Stdout true) (Call NoOperandsStdin (Call AllStreamIn Return)).
(** InputOutputInfoGeneratorComm.py:13-16 *)
Definition m_comm : method := Call (Stdout true) (If (Operands 2) (Call AllStreamIn Return) (Fail AssertionError)).
(** InputOutputInfoGeneratorSort.py:8-15, InputOutputInfoGeneratorCustomSort.py:6-13 *)
Definition m_sort : method :=
  let rest := If (And (Operands 0) (Not (Contains ["--files0-from"]))) (Call (Stdin true) Return) (Call AllStreamIn Return) in
  If (Not (Contains ["-o"])) (Call (Stdout true) rest) rest.
(** InputOutputInfoGeneratorTr.py:13-16, InputOutputInfoGeneratorCustomTr.py:7-10 *)
Definition m_tr : method := Call (Stdin true) (Call (Stdout true) (Call AllConfigString Return)).
(** InputOutputInfoGeneratorDiff.py:6-8 *)
Definition m_diff : method := Call (Stdout true) (Call AllStreamIn Return).
(** InputOutputInfoGeneratorGrep.py:19-34 *)
Definition m_grep : method := If (Not (Contains ["-q"])) (Call (Stdout true) (m_script ["-e"; "-f"])) (m_script ["-e"; "-f"]).
(** InputOutputInfoGenerator{Mkfifo,Rm}.py:6-7 *)
Definition m_rm : method := Call AllOtherOut Return.
(** InputOutputInfoGeneratorMv.py:33-44 *)
Definition m_mv : method :=
  If (Filtered ["-t"] 0) (Call ButLastOtherIn (Call LastOtherOut Return))
    (If (Filtered ["-t"] 1) (Call AllOtherIn Return) (Fail GenericException)).
(** InputOutputInfoGeneratorSed.py:6-13 *)
Definition m_sed : method :=
  Call (Stdin true) (Call (Stdout true)
    (If (Not (Contains ["-e"; "-f"])) (Call FirstConfigString (Call ButFirstStreamIn Return)) (Call AllStreamIn Return))).
(** InputOutputInfoGeneratorSeq.py:6-8 *)
Definition m_seq : method := Call (Stdout true) (Call AllConfigString Return).
(** InputOutputInfoGeneratorSetDiff.py:6-10 *)
Definition m_set_diff : method :=
  Call (Stdin true) (Call (Stdout true) (If (Operands 1) (Call FirstConfigFile Return) (Fail AssertionError))).
(** InputOutputInfoGeneratorTee.py:6-10 *)
Definition m_tee : method := Call (Stdin true) (Call (Stdout true) (Call AllStreamOut Return)).
(** InputOutputInfoGeneratorUniq.py:12-25 *)
Definition m_uniq : method :=
  If (Operands 0) (Call (Stdin true) (Call (Stdout true) Return))
    (If (Operands 1) (Call AllStreamIn (Call (Stdout true) Return))
      (If (Operands 2) (Call ButLastStreamIn (Call LastStreamOut Return)) (Fail GenericException))).
(** InputOutputInfoGeneratorWc.py:6-15 *)
Definition m_wc : method :=
  If (Contains ["--files0-from"]) (Fail GenericException)
    (If (Operands 0) (Call (Stdin true) (Call (Stdout true) Return)) (Call AllStreamIn (Call (Stdout true) Return))).
(** InputOutputInfoGeneratorXargs.py:6-10 *)
Definition m_xargs : method := Call AllArgString (Call (Stdin true) (Call (Stdout true) Return)).

(** The classes imported by AnnotationGeneration.py:58-65, that is, the files that exist *)
Definition io_generator_methods : dict method :=
  [("AltBigramAuxReduce", m_alt_bigram_aux_reduce); ("AltBigramsAux", m_stdin_stdout);
   ("Awk", m_awk); ("BigramsAux", m_stdin_stdout); ("Cat", m_cat); ("Col", m_stdin_stdout);
   ("Comm", m_comm); ("CustomSort", m_sort); ("CustomTr", m_tr); ("Cut", m_cat);
   ("Diff", m_diff); ("Grep", m_grep); ("Head", m_cat); ("Mkfifo", m_rm); ("Mv", m_mv);
   ("Rm", m_rm); ("Sed", m_sed); ("Seq", m_seq); ("SetDiff", m_set_diff); ("Sort", m_sort);
   ("Tail", m_cat); ("Tee", m_tee); ("TestOne", m_stdin_stdout); ("TestTwo", m_stdin_stdout);
   ("Tr", m_tr); ("Uniq", m_uniq); ("Wc", m_wc); ("Xargs", m_xargs)].

(** AnnotationGeneration.py:73-78, the body of [try]: InputOutputInfoGenerator_Interface.py:26-35,
    [generate_info] and [get_info] (:41-42).  As in IOGen.v a class that does not exist is a
    [KeyError]. *)
Definition make_info_h (dir : data_dir) (name : string) (cmd_inv : hval) : hm hval :=
  run! m := hlift (PyBase.dict_get io_generator_methods (representation_of name)) in
  run! ft := get_flagoption_list_typer_h dir cmd_inv in
  run! l := get_attr cmd_inv "operand_list" in
  run! vs := items l in
  run! self := new_io_info_h ft (length vs) HNone HNone in
  run! _ := run_h cmd_inv m self in
  hret self.
(** AnnotationGeneration.py:69-80; [None] after an exception, the objects made before stay *)
Definition get_input_output_info_h (dir : data_dir) (cmd_inv : hval) : hm hval :=
  run! name := get_cmd_name cmd_inv in
  fun h => match make_info_h dir name cmd_inv h with (h', Ok v) => (h', Ok v) | (h', Raise _) => (h', Ok HNone) end.
(** What a client does: the information, if there is some, is applied to the invocation. *)
Definition annotate_h (dir : data_dir) (cmd_inv : hval) : hm hval :=
  run! info := get_input_output_info_h dir cmd_inv in
  match info with
  | HNone => hret HNone
  | _ => apply_io_info_h info cmd_inv
  end.
