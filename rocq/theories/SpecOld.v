(** * The earlier annotation language (old_annotations/README.md:54-175)
    A record has a list of cases; the first case whose predicate holds of the invocation gives
    the class of the command, its inputs and its outputs.  The interpreter of the records is not in
    the repository; the reading below follows the README, and the records for the operators
    it does not mention (len_args_eq, val_opt_eq, !exists). *)
From Coq Require Import NArith.
Require Import Verif.PyBase Verif.Parser Verif.SpecIO Verif.SpecPara Verif.Json Verif.SpecJson Verif.OldText Verif.ShippedData.

(** ** Predicates *)
Inductive pred : Type :=
| Otherwise
| Exists_ (names : list string)
| NotExists (names : list string)
| ValueIs (names : list string) (v : string)
| Arguments (n : nat)
| AllOf (ps : list pred)
| AnyOf (ps : list pred).

(** When a predicate holds of an invocation: flags and options are looked for by name. *)
Fixpoint met (inv : invocation) (p : pred) : Prop :=
  match p with
  | Otherwise => True
  | Exists_ names => uses_any inv names
  | NotExists names => ~ uses_any inv names
  | ValueIs names v => exists n, In n names /\ In (Option_ n v) (flag_option_list inv)
  | Arguments n => length (operand_list inv) = n
  | AllOf ps => (fix all (ps : list pred) : Prop := match ps with [] => True | p :: ps' => met inv p /\ all ps' end) ps
  | AnyOf ps => (fix any (ps : list pred) : Prop := match ps with [] => False | p :: ps' => met inv p \/ any ps' end) ps
  end.

(** ** Reading a record *)
Fixpoint number_from (acc : nat) (s : string) : option nat :=
  match s with
  | EmptyString => Some acc
  | String c s' =>
      let d := nat_of_ascii c - 48 in
      if Nat.leb 48 (nat_of_ascii c) && Nat.leb d 9 then number_from (10 * acc + d) s' else None
  end.
(** An operator that is not "and" or "or", with its operands *)
Definition simple_pred (op : string) (operands : list json) : option pred :=
  match op, operands with
  | "exists", _ => option_map Exists_ (strings_of operands)
  | "!exists", _ => option_map NotExists (strings_of operands)
  | "len_args_eq", [JNum n] => option_map Arguments (number_from 0 n)
  | ("val_opt_eq" | "value"), _ =>
      match strings_of operands with
      | Some l => match rev l with v :: names => Some (ValueIs (rev names) v) | [] => None end
      | None => None
      end
  | _, _ => None
  end%string.
Fixpoint pred_of (v : json) : option pred :=
  match v with
  | JStr s => if codes_eqb s (codes "default") then Some Otherwise else None
  | JObj ms =>
      (* the operands read as predicates *)
      let inner :=
        (fix go (ms : list (list N * json)) : option (list pred) :=
           match ms with
           | [] => None
           | (k, w) :: ms' =>
               match go ms' with
               | Some ps => Some ps
               | None =>
                   if codes_eqb k (codes "operands") then
                     match w with
                     | JArr l => (fix each (l : list json) : option (list pred) :=
                                    match l with
                                    | [] => Some []
                                    | x :: l' => match pred_of x, each l' with Some p, Some ps => Some (p :: ps) | _, _ => None end
                                    end) l
                     | _ => None
                     end
                   else None
               end
           end) ms in
      match last_assigned ms (codes "operator"), last_assigned ms (codes "operands") with
      | Some (JStr op), Some (JArr l) =>
          match small_text op with
          | Some "and" => option_map AllOf inner
          | Some "or" => option_map AnyOf inner
          | Some op => simple_pred op l
          | None => None
          end
      | _, _ => None
      end
  | _ => None
  end%string.
Record old_case : Type := mkCase { c_when : pred; c_class : string }.
Definition case_of (v : json) : option old_case :=
  match v with
  | JObj ms =>
      match last_assigned ms (codes "predicate"), last_assigned ms (codes "class") with
      | Some p, Some (JStr k) =>
          match pred_of p, small_text k with Some p, Some k => Some (mkCase p k) | _, _ => None end
      | _, _ => None
      end
  | _ => None
  end.
(** The command and the cases *)
Definition record_of (v : json) : option (string * list old_case) :=
  match v with
  | JObj ms =>
      match last_assigned ms (codes "command"), last_assigned ms (codes "cases") with
      | Some (JStr n), Some (JArr l) =>
          match small_text n, all_some (map case_of l) with Some n, Some cs => Some (n, cs) | _, _ => None end
      | _, _ => None
      end
  | _ => None
  end.
(** The file [fn] has a record for the command [name]. *)
Definition old_record (fn name : string) (cs : list old_case) : Prop :=
  exists t v, In (fn, t) old_texts /\ document v t /\ record_of v = Some (name, cs).

(** ** Classes *)
Inductive assigned (inv : invocation) : list old_case -> string -> Prop :=
| as_here c cs : met inv (c_when c) -> assigned inv (c :: cs) (c_class c)
| as_later c cs k : ~ met inv (c_when c) -> assigned inv cs k -> assigned inv (c :: cs) k.
(** The records put the invocation into class [k]. *)
Definition old_class (inv : invocation) (k : string) : Prop :=
  exists fn cs, old_record fn (cmd_name inv) cs /\ assigned inv cs k.
(** The classes of the README *)
Definition documented : list string := ["stateless"; "parallelizable_pure"; "pure"; "side-effectful"].
(** The records allow to parallelize the invocation. *)
Definition old_parallel (inv : invocation) : Prop :=
  old_class inv "stateless" \/ old_class inv "parallelizable_pure".
(** The generators do. *)
Definition has_plan (inv : invocation) : Prop :=
  exists l b, annotated shipped_dir inv (Some (l, b)) /\ l <> [].

(** The commands with a record *)
Definition old_commands : list string :=
  map (fun x => match loads (snd x) with
                | Ok v => match record_of v with Some (n, _) => n | None => "" end
                | Raise _ => ""
                end) old_texts.

(** ** The differences *)
Definition grep_context : list string := ["-A"; "-B"; "-C"; "-m"].
Definition recursive : list string := ["-r"; "--recursive"; "-R"; "--dereference-recursive"].
(** Commands without a generator of parallelizability information that the records call parallelizable *)
Definition dropped : list string :=
  ["bc"; "extract_text"; "groff"; "gunzip"; "gzip"; "jobs"; "ps"; "r_merge"; "rev"; "shuf"; "stem-words.js"; "tac";
   "test_uniq_1"; "test_uniq_2"].

(** Parallelizable by the records, but not by the generators *)
Inductive lost (inv : invocation) : Prop :=
| lost_command : In (cmd_name inv) dropped -> lost inv
| lost_cat : cmd_name inv = "cat" -> ~ uses inv "-n" -> lost inv
| lost_fmt : cmd_name inv = "fmt" -> uses inv "-w1" -> lost inv
| lost_hdfs : cmd_name inv = "hdfs" -> uses inv "-cat" -> lost inv
| lost_pr : cmd_name inv = "pr" -> uses inv "-T, --omit-pagination" -> ~ uses inv "integer" -> lost inv
| lost_sort : In (cmd_name inv) ["sort"; "custom_sort"] -> ~ uses inv "-m" ->
    uses_any inv ["-c"; "-C"; "-u"; "-z"; "-R"; "-s"; "--files0-from"; "--random-source"] -> lost inv
| lost_grep : cmd_name inv = "grep" -> ~ uses inv "-c" ->
    length (operand_list inv) = 1 \/ ~ uses_any inv recursive ->
    uses inv "-q" \/ ~ uses_any inv grep_context /\ uses_any inv ["-L"; "-l"; "-n"; "-b"] -> lost inv
| lost_tr : cmd_name inv = "tr" -> operand_list inv = [] -> uses inv "-d" \/ uses inv "-s" /\ uses inv "--delete" -> lost inv.

(** Parallelizable by the generators, but not by the records *)
Inductive gained (inv : invocation) : Prop :=
| gained_sed script rest : cmd_name inv = "sed" -> operand_list inv = script :: rest -> per_line_script script -> gained inv
| gained_uniq : cmd_name inv = "uniq" -> ~ uses_any inv ["-d"; "-D"; "--all-repeated"] -> gained inv
| gained_cut : cmd_name inv = "cut" -> (exists n, In n ["-d"; "--delimiter"] /\ In (Option_ n (String "010"%char "")) (flag_option_list inv)) ->
    uses_any inv ["-f"; "--fields"] -> gained inv
| gained_tr : cmd_name inv = "tr" -> ~ uses_any inv ["-d"; "--delete"] -> uses_any inv ["-s"; "--squeeze-repeats"] ->
    operand_list inv <> [] \/ ~ uses inv "-s" -> gained inv
| gained_grep_count : cmd_name inv = "grep" -> uses inv "-c" -> uses_any inv grep_context -> ~ uses inv "-q" -> gained inv
| gained_grep_recursive : cmd_name inv = "grep" -> ~ uses inv "-c" -> length (operand_list inv) <> 1 -> uses_any inv recursive ->
    ~ uses inv "-q" -> uses_any inv grep_context \/ ~ uses_any inv ["-L"; "-l"; "-n"; "-b"] -> gained inv.
