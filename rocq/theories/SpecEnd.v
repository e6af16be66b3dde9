(** * From command lines to plans
    Specification for C73.  The repository has invocations with input/output information
    (CommandInvocationWithIO.py) and invocations with io variables
    (CommandInvocationWithIOVars.py), but leaves it to its users to make the latter from the
    former.  Here is what the users have to do. *)
Require Import Verif.PyBase Verif.JsonData Verif.Parser Verif.Access Verif.IOInfo Verif.IOVars Verif.SpecLists Verif.SpecIO Verif.SpecVars Verif.SpecSem.

(** Every file and standard stream gets a variable with its access; strings remain. *)
Definition stands_for (c : civ) (x : io_arg) (y : pyval) : Prop :=
  match x with
  | ArgString s => y = PArg s
  | Res r => exists v, y = PVar v /\ v_acc c v = Some (res_access r)
  end.
(** Files in options may also remain, unless they are streams. *)
Inductive numbered_flag (c : civ) : flag_option_io -> flag_el -> Prop :=
| nf_flag n : numbered_flag c (FlagIO n) (FFlag n)
| nf_option n x y : stands_for c x y -> numbered_flag c (OptionIO n x) (FOptIO n y)
| nf_kept n r : res_access r <> STREAM_INPUT -> res_access r <> STREAM_OUTPUT ->
    numbered_flag c (OptionIO n (Res r)) (FOptIO n (PRes r)).
Definition numbered_implicit (c : civ) (x : option resource) (y : pyval) : Prop :=
  match x with Some r => stands_for c (Res r) y | None => y = PNone end.
(** Different places get different variables, and no other variable has an access. *)
Definition numbered (a : invocation_io) (c : civ) : Prop :=
  v_cmd c = io_cmd_name a /\ Forall2 (numbered_flag c) (io_flag_option_list a) (v_flags c) /\
  Forall2 (stands_for c) (io_operand_list a) (v_ops c) /\
  numbered_implicit c (io_implicit_input a) (v_in c) /\ numbered_implicit c (io_implicit_output a) (v_out c) /\
  tight c.

(** One streaming input, which is no argument of an option, and one streaming output, which is
    standard output *)
Definition option_io_args (a : invocation_io) : list io_arg :=
  flat_map (fun f => match f with OptionIO _ x => [x] | FlagIO _ => [] end) (io_flag_option_list a).
Definition none_has (k : access) (l : list io_arg) : Prop := forall x, In x l -> ~ has_access x k.
Definition one_has (k : access) (l : list io_arg) : Prop :=
  exists l1 x l2, l = l1 ++ x :: l2 /\ has_access x k /\ none_has k l1 /\ none_has k l2.
Definition one_stream (a : invocation_io) : Prop :=
  none_has STREAM_INPUT (option_io_args a) /\ none_has STREAM_OUTPUT (option_io_args a ++ io_operand_list a) /\
  io_implicit_output a = Some stdout /\
  ((io_implicit_input a = Some stdin /\ none_has STREAM_INPUT (io_operand_list a)) \/
   (io_implicit_input a = None /\ one_has STREAM_INPUT (io_operand_list a))).
(** The implicit streams are standard streams. *)
Definition plain_streams (a : invocation_io) : Prop :=
  (io_implicit_input a = None \/ io_implicit_input a = Some stdin) /\ (io_implicit_output a = None \/ io_implicit_output a = Some stdout).
(** Which command lines these are *)
Definition one_stream_line (inv : invocation) : Prop :=
  let n := length (operand_list inv) in
  match cmd_name inv with
  | "cat" | "cut" | "head" | "tail" | "wc" | "uniq" => n <= 1
  | "sort" | "custom_sort" => ~ uses inv "-o" /\ (n = 1 \/ (n = 0 /\ ~ uses inv "--files0-from"))
  | "grep" => ~ uses inv "-q" /\ (((uses inv "-e" \/ uses inv "-f") /\ n <= 1) \/ (~ uses inv "-e" /\ ~ uses inv "-f" /\ (n = 1 \/ n = 2)))
  | "awk" => (uses inv "-f" /\ n <= 1) \/ (~ uses inv "-f" /\ (n = 1 \/ n = 2))
  | "sed" => ((uses inv "-e" \/ uses inv "-f") /\ n = 0) \/ (~ uses inv "-e" /\ ~ uses inv "-f" /\ n = 1)
  | "diff" => n = 1 /\ ~ exists name s, In (Option_ name s) (flag_option_list inv) /\ In name ["--from-file"; "--to-file"]
  | "tr" | "custom_tr" | "xargs" => True
  | "set_diff" => n = 1
  | "tee" | "col" | "alt_bigrams_aux" | "bigrams_aux" | "test_one" | "test_two" => n = 0
  | "alt_bigram_aux_reduce" => n = 1
  | _ => False
  end%string.

(** The flags and options as written *)
Definition as_word (fo : flag_option) : wflag := match fo with Flag n => WFlag n | Option_ n s => WOption n (WText s) end.
Definition as_words (inv : invocation) : list wflag := map as_word (flag_option_list inv).
(** The variable of the streaming input *)
Definition streams_in (c : civ) (v : Z) : Prop := v_acc c v = Some STREAM_INPUT.
