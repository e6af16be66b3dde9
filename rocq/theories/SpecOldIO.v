(** * Inputs and outputs in the earlier annotation language (old_annotations/README.md:54-175) *)
From Coq Require Import NArith.
Require Import Verif.PyBase Verif.Parser Verif.Access Verif.IOInfo Verif.SpecIO Verif.SpecPara Verif.Json Verif.SpecJson Verif.OldText Verif.ShippedData Verif.SpecOld.

(** ** Places: stdin or stdout, an argument, a range of arguments *)
Inductive place : Type :=
| Standard
| Argument (n : nat)
| Range (from : nat) (to : option nat).
Definition number (s : string) : option nat := if String.eqb s "" then None else number_from 0 s.
(** [<maybe-int>], with a default *)
Definition maybe_number (s : string) (d : option nat) : option (option nat) :=
  if String.eqb s "" then Some d else option_map Some (number_from 0 s).
(** The text in [args[...]] *)
Definition inside (s : string) : option string :=
  let n := String.length s in
  if String.prefix "args[" s && String.eqb (substring (n - 1) 1 s) "]" then Some (substring 5 (n - 6) s) else None.
Definition place_of (standard s : string) : option place :=
  if String.eqb s standard then Some Standard
  else match inside s with
       | None => None
       | Some t =>
           match String.index 0 ":" t with
           | None => option_map Argument (number t)
           | Some i =>
               match maybe_number (substring 0 i t) (Some 0), maybe_number (substring (i + 1) (String.length t - i - 1) t) None with
               | Some (Some a), Some b => Some (Range a b)
               | _, _ => None
               end
           end
       end.
Definition places_of (standard : string) (v : json) : option (list place) :=
  match v with
  | JArr l => match strings_of l with Some ss => all_some (map (place_of standard) ss) | None => None end
  | _ => None
  end.
(** Inputs may be given in two parts; the configuration is no stream. *)
Definition inputs_of (v : json) : option (list place) :=
  match v with
  | JObj ms => match last_assigned ms (codes "standard") with Some w => places_of "stdin" w | None => None end
  | _ => places_of "stdin" v
  end.

(** ** Records *)
(** [ic_hyphen]: a hyphen stands for the standard stream.  The README has this option for records; cases have it, too. *)
Record io_case : Type := mkIoCase { ic_when : pred; ic_hyphen : bool; ic_in : option (list place); ic_out : option (list place) }.
Definition hyphen_option (ms : list (list N * json)) : bool :=
  match last_assigned ms (codes "options") with
  | Some (JArr l) => match strings_of l with Some ss => mem "stdin-hyphen" ss | None => false end
  | _ => false
  end.
Definition io_case_of (v : json) : option io_case :=
  match v with
  | JObj ms =>
      match last_assigned ms (codes "predicate") with
      | Some p => match pred_of p with
                  | Some p => Some (mkIoCase p (hyphen_option ms)
                                      (match last_assigned ms (codes "inputs") with Some w => inputs_of w | None => None end)
                                      (match last_assigned ms (codes "outputs") with Some w => places_of "stdout" w | None => None end))
                  | None => None
                  end
      | None => None
      end
  | _ => None
  end.
(** The command, whether a hyphen stands for the standard stream in all cases, and the cases *)
Definition io_record_of (v : json) : option (string * bool * list io_case) :=
  match v with
  | JObj ms =>
      match last_assigned ms (codes "command"), last_assigned ms (codes "cases") with
      | Some (JStr n), Some (JArr l) =>
          match small_text n, all_some (map io_case_of l) with Some n, Some cs => Some (n, hyphen_option ms, cs) | _, _ => None end
      | _, _ => None
      end
  | _ => None
  end.

(** ** Streams *)
(** The arguments at a place *)
Definition selected (xs : list string) (p : place) : list string :=
  match p with
  | Standard => []
  | Argument n => match nth_error xs n with Some x => [x] | None => [] end
  | Range a None => skipn a xs
  | Range a (Some b) => firstn (b - a) (skipn a xs)
  end.
Definition streams_at (hyphen : bool) (d : std) (xs : list string) (p : place) : list file_or_std :=
  match p with
  | Standard => [StdDescriptor d]
  | _ => map (fun s => if hyphen && String.eqb s "-" then StdDescriptor d else FileName s) (selected xs p)
  end.
Inductive first_case (inv : invocation) : list io_case -> io_case -> Prop :=
| fc_here c cs : met inv (ic_when c) -> first_case inv (c :: cs) c
| fc_later c cs k : ~ met inv (ic_when c) -> first_case inv cs k -> first_case inv (c :: cs) k.
(** The records give the invocation these input streams. *)
Definition old_inputs (inv : invocation) (ins : list file_or_std) : Prop :=
  exists fn t v hyphen cs c ps, In (fn, t) old_texts /\ document v t /\ io_record_of v = Some (cmd_name inv, hyphen, cs) /\
    first_case inv cs c /\ ic_in c = Some ps /\ ins = flat_map (streams_at (hyphen || ic_hyphen c) STDIN (operand_list inv)) ps.
Definition old_outputs (inv : invocation) (outs : list file_or_std) : Prop :=
  exists fn t v hyphen cs c ps, In (fn, t) old_texts /\ document v t /\ io_record_of v = Some (cmd_name inv, hyphen, cs) /\
    first_case inv cs c /\ ic_out c = Some ps /\ outs = flat_map (streams_at (hyphen || ic_hyphen c) STDOUT (operand_list inv)) ps.

(** The streams that the generators find: those of options, operands, and the implicit ones *)
Definition stream_of (k : access) (x : io_arg) : list file_or_std :=
  match x with
  | Res r => if access_eqb (res_access r) k then [res_el r] else []
  | ArgString _ => []
  end.
Definition streams (k : access) (c : invocation_io) (implicit : option resource) : list file_or_std :=
  flat_map (fun fo => match fo with OptionIO _ x => stream_of k x | FlagIO _ => [] end) (io_flag_option_list c) ++
  flat_map (stream_of k) (io_operand_list c) ++
  match implicit with Some r => stream_of k (Res r) | None => [] end.
Definition new_inputs (c : invocation_io) : list file_or_std := streams STREAM_INPUT c (io_implicit_input c).
Definition new_outputs (c : invocation_io) : list file_or_std := streams STREAM_OUTPUT c (io_implicit_output c).

(** ** When they are the same
    [files script inv]: the operands that are files if the first one is a script or a pattern
    unless one of the options [script] is used. *)
Definition option_args (inv : invocation) (n : string) : list string :=
  flat_map (fun fo => match fo with Option_ m a => if String.eqb m n then [a] else [] | Flag _ => [] end) (flag_option_list inv).
Inductive files (script : list string) (inv : invocation) : list string -> Prop :=
| files_all : uses_any inv script -> files script inv (operand_list inv)
| files_rest s l : ~ uses_any inv script -> operand_list inv = s :: l -> files script inv l.
(** Nothing is read but standard input. *)
Definition stdin_only (l : list string) : Prop := l = [] \/ l = ["-"].

(** Both sides agree about what is read. *)
Inductive inputs_agree (inv : invocation) : Prop :=
| ia_always : In (cmd_name inv) ["tr"; "custom_tr"; "xargs"; "set_diff"; "seq"; "tee"; "comm"] -> inputs_agree inv
| ia_filters : In (cmd_name inv) ["col"; "alt_bigrams_aux"; "bigrams_aux"; "test_one"; "test_two"] ->
    operand_list inv = [] -> inputs_agree inv
| ia_files : cmd_name inv = "alt_bigram_aux_reduce" -> ~ In "-" (operand_list inv) -> inputs_agree inv
| ia_diff : cmd_name inv = "diff" -> ~ In "-" (operand_list inv) ->
    option_args inv "--from-file" = [] -> option_args inv "--to-file" = [] -> inputs_agree inv
| ia_cat : cmd_name inv = "cat" -> operand_list inv <> [] \/ ~ uses inv "-n" -> inputs_agree inv
| ia_stdin : In (cmd_name inv) ["cut"; "head"; "tail"; "wc"] -> stdin_only (operand_list inv) -> inputs_agree inv
| ia_sort : In (cmd_name inv) ["sort"; "custom_sort"] -> ~ uses inv "-m" -> stdin_only (operand_list inv) ->
    operand_list inv <> [] \/ ~ uses inv "--files0-from" -> inputs_agree inv
| ia_merge : In (cmd_name inv) ["sort"; "custom_sort"] -> uses inv "-m" -> ~ In "-" (operand_list inv) ->
    operand_list inv <> [] \/ uses inv "--files0-from" -> inputs_agree inv
| ia_grep_stdin l : cmd_name inv = "grep" -> uses inv "-c" \/ length (operand_list inv) = 1 ->
    files ["-e"; "-f"] inv l -> stdin_only l -> inputs_agree inv
| ia_grep_files : cmd_name inv = "grep" -> ~ uses inv "-c" -> length (operand_list inv) >= 2 -> ~ uses_any inv recursive ->
    uses_any inv ["-e"; "-f"] -> ~ In "-" (operand_list inv) -> inputs_agree inv
| ia_sed : cmd_name inv = "sed" -> files ["-e"; "-f"] inv [] -> inputs_agree inv
| ia_awk l : cmd_name inv = "awk" -> files ["-f"] inv l -> stdin_only l -> inputs_agree inv
| ia_uniq : cmd_name inv = "uniq" -> hd "-" (operand_list inv) = "-" -> inputs_agree inv.

(** Both sides agree about what is written. *)
Inductive outputs_agree (inv : invocation) : Prop :=
| oa_always : ~ In (cmd_name inv) ["grep"; "mkfifo"; "rm"; "sort"; "custom_sort"; "tee"; "uniq"] -> outputs_agree inv
| oa_grep : cmd_name inv = "grep" -> ~ uses inv "-q" ->
    uses inv "-c" \/ length (operand_list inv) = 1 \/ ~ uses_any inv recursive -> outputs_agree inv
| oa_sort : In (cmd_name inv) ["sort"; "custom_sort"] -> ~ uses inv "-o" \/ option_args inv "-o" = ["-"] -> outputs_agree inv
| oa_tee : cmd_name inv = "tee" -> ~ In "-" (operand_list inv) -> outputs_agree inv
| oa_uniq : cmd_name inv = "uniq" -> nth 1 (operand_list inv) "-" = "-" -> outputs_agree inv.

(** The one case without streams *)
Definition recursive_search (inv : invocation) : Prop :=
  cmd_name inv = "grep" /\ ~ uses inv "-c" /\ length (operand_list inv) <> 1 /\ uses_any inv recursive.
