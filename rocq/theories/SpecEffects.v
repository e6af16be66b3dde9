(** * Specification: which files a command reads and writes

    From the manuals of the GNU commands, for the options and operands as the command itself finds
    them (SpecGetopt.v).  A file that is created, removed or renamed counts as written, and so does
    a directory in which files are created.  Directories are read with everything below.

    Left out: what scripts of sed and programs of awk, and the commands run by xargs, do on their
    own account; messages and questions on the standard error stream and on the terminal; what
    [--help] and [--version] print instead of the usual output. *)
Require Import Verif.PyBase Verif.JsonData Verif.Parser Verif.Access Verif.IOInfo Verif.ShippedData
  Verif.SpecShlex Verif.SpecParser Verif.SpecIO Verif.SpecGetopt.

Inductive effect : Type := ReadsStdin | WritesStdout | Reads (f : string) | Writes (f : string).

(** Options found, by any spelling, and their arguments. *)
Definition named (n : string) (o : found) : bool := existsb (fun p => String.eqb (fst p) n) (fst o).
Definition given (os : list found) (n : string) : bool := existsb (named n) os.
Definition values (os : list found) (n : string) : list string :=
  flat_map (fun o => match snd o with Some a => if named n o then [a] else [] | None => [] end) os.

(** Input files, where a dash stands for standard input; none means standard input. *)
Definition input (w : string) : effect := if String.eqb w "-" then ReadsStdin else Reads w.
Definition inputs (l : list string) : list effect := match l with [] => [ReadsStdin] | _ => map input l end.

(** The files of a command whose first operand is a pattern or script unless an option gives it. *)
Definition files_after (script : bool) (ops : list string) : list string := if script then ops else tl ops.

(** awk takes [name=value] for an assignment. *)
Definition letter (c : ascii) : bool :=
  let n := nat_of_ascii c in
  (((65 <=? n) && (n <=? 90)) || ((97 <=? n) && (n <=? 122)) || (n =? 95))%nat.
Definition digit (c : ascii) : bool := let n := nat_of_ascii c in ((48 <=? n) && (n <=? 57))%nat.
Fixpoint assigned (s : string) : bool :=
  match s with
  | EmptyString => false
  | String c s => Ascii.eqb c "=" || ((letter c || digit c) && assigned s)
  end.
Definition assignment (s : string) : bool :=
  match s with EmptyString => false | String c s => letter c && assigned s end.

(** rm asks before removing: the last of [-f], [-i] and [-I] counts. *)
Definition last_of (ns : list string) (os : list found) : option string :=
  fold_left (fun r o => match find (fun n => named n o) ns with Some n => Some n | None => r end) os None.
Definition rm_asks (os : list found) (ops : list string) : bool :=
  match last_of ["-f"; "-i"; "-I"] os with
  | Some n => String.eqb n "-i" || (String.eqb n "-I" && ((3 <? length ops)%nat || given os "-r"))
  | None => false
  end.

(** The operands of mv that are moved, and where they are moved to. *)
Definition mv_sources (os : list found) (ops : list string) : list string :=
  match values os "-t" with [] => removelast ops | _ => ops end.
Definition mv_targets (os : list found) (ops : list string) : list string :=
  match values os "-t" with [] => skipn (length ops - 1) ops | l => l end.

Definition effects (name : string) (os : list found) (ops : list string) : list effect :=
  match name with
  | "cat" | "cut" | "head" | "tail" => WritesStdout :: inputs ops
  | "wc" => WritesStdout :: match values os "--files0-from" with [] => inputs ops | l => map input l end
  | "sort" =>
      match values os "-o" with
      | [] => if given os "-c" || given os "-C" then [] else [WritesStdout]
      | l => map Writes l
      end ++
      match values os "--files0-from" with [] => inputs ops | l => map input l end ++
      map Writes (values os "-T") ++ map Reads (values os "--random-source")
  | "grep" =>
      (if given os "-q" then [] else [WritesStdout]) ++
      match files_after (given os "-e" || given os "-f") ops with
      | [] => if given os "-r" || given os "-R" then [Reads "."] else [ReadsStdin]
      | l => map input l
      end ++
      map input (values os "-f") ++ map input (values os "--exclude-from")
  | "sed" =>
      let files := files_after (given os "-e" || given os "-f") ops in
      (if given os "-i" then flat_map (fun f => [Reads f; Writes f]) files else WritesStdout :: inputs files) ++
      map input (values os "-f")
  | "awk" =>
      let files := files_after (given os "-f" || given os "-e" || given os "-E") ops in
      WritesStdout :: inputs (filter (fun w => negb (assignment w)) files) ++
      map input (values os "-f") ++ map input (values os "-E") ++
      (if given os "-d" then [Writes "awkvars.out"] else []) ++
      (if given os "-p" then [Writes "awkprof.out"] else []) ++
      (if given os "-D" then [ReadsStdin] else [])
  | "comm" => WritesStdout :: map input ops
  | "diff" =>
      WritesStdout :: map input ops ++ map input (values os "-X") ++
      map input (values os "--from-file") ++ map input (values os "--to-file")
  | "uniq" =>
      match ops with
      | [] => [ReadsStdin; WritesStdout]
      | [i] => [input i; WritesStdout]
      | i :: o :: _ => [input i; if String.eqb o "-" then WritesStdout else Writes o]
      end
  | "tee" => ReadsStdin :: WritesStdout :: map Writes ops
  | "mkfifo" => map Writes ops
  | "rm" =>
      map Writes ops ++ (if given os "-v" then [WritesStdout] else []) ++
      (if rm_asks os ops then [ReadsStdin] else [])
  | "mv" =>
      map Writes (mv_sources os ops) ++ map Writes (mv_targets os ops) ++
      (if given os "-v" then [WritesStdout] else [])
  | "tr" => [ReadsStdin; WritesStdout]
  | "seq" => [WritesStdout]
  | "xargs" => WritesStdout :: match values os "-a" with [] => [ReadsStdin] | l => map input l end
  | _ => []
  end.

(** ** What the input/output information announces *)
Definition mentions (c : invocation_io) (r : resource) : Prop :=
  In (Res r) (io_operand_list c) \/ (exists n, In (OptionIO n (Res r)) (io_flag_option_list c)) \/
  io_implicit_input c = Some r \/ io_implicit_output c = Some r.
Definition announced (c : invocation_io) (e : effect) : Prop :=
  exists r, mentions c r /\
    match e with
    | ReadsStdin => res_el r = StdDescriptor STDIN /\ input_access (res_access r)
    | WritesStdout => res_el r = StdDescriptor STDOUT /\ output_access (res_access r)
    | Reads f => res_el r = FileName f /\ input_access (res_access r)
    | Writes f => res_el r = FileName f /\ output_access (res_access r)
    end.
Definition all_announced (name : string) (os : list found) (ops : list string) (c : invocation_io) : Prop :=
  forall e, In e (effects name os ops) -> announced c e.

(** A command line that is understood: the command reads [os] and [ops], parse finds the same
    (C70), and there is input/output information. *)
Definition understood (name s : string) (os : list found) (ops : list string)
    (inv : invocation) (c : invocation_io) : Prop :=
  exists T p ws, In (name, (T, p)) manual /\ tokenises s (name :: ws) /\ reads T p ws os ops /\
    plain T p (misread name) ws /\ given os "--help" = false /\ given os "--version" = false /\
    parse shipped_dir s = Ok inv /\ with_io shipped_dir inv c.
