(** * What information depends on *)
Require Import Verif.PyBase Verif.JsonData Verif.Parser Verif.IOInfo Verif.IOGen Verif.SpecParser Verif.SpecIO.

(** The names of flags and options that the input/output information of a command depends on *)
Definition io_names (cmd : string) : list string :=
  match cmd with
  | "awk" => ["-f"]
  | "grep" => ["-q"; "-e"; "-f"]
  | "sed" => ["-e"; "-f"]
  | "sort" | "custom_sort" => ["-o"; "--files0-from"]
  | "mv" => ["-t"]
  | "wc" => ["--files0-from"]
  | _ => []
  end%string.
(** The same for parallelizability *)
Definition para_names (cmd : string) : list string :=
  match cmd with
  | "grep" => ["-q"; "-A"; "-B"; "-C"; "-m"; "-L"; "-l"; "-c"; "-n"; "-b"]
  | "sort" | "custom_sort" => ["-c"; "-C"; "-u"; "-z"; "-R"; "-s"; "-m"; "--files0-from"; "--random-source"]
  | "uniq" => ["-d"; "-D"; "--all-repeated"; "-c"]
  | "tr" => ["-d"; "-s"; "-c"]
  | _ => []
  end%string.
(** The part of the operands that parallelizability depends on *)
Definition para_operands (cmd : string) (a b : list string) : Prop :=
  match cmd with
  | "sed" => hd_error a = hd_error b
  | "tr" => hd_error (rev a) = hd_error (rev b) /\ (length a = 1 <-> length b = 1)
  | _ => True
  end%string.
(** Both invocations use the same of the names. *)
Definition same_uses (names : list string) (inv inv' : invocation) : Prop :=
  forall n, In n names -> (uses inv n <-> uses inv' n).
(** mv also tells one -t from several. *)
Definition same_targets (inv inv' : invocation) : Prop :=
  cmd_name inv = "mv" -> Nat.min 2 (length (uses_of inv "-t")) = Nat.min 2 (length (uses_of inv' "-t")).
(** The options can be classified, see C15 and C16. *)
Definition classified (dir : data_dir) (inv : invocation) : Prop := exists fos, options_classified dir inv fos.
(** What two pieces of input/output information have in common apart from options *)
Definition same_streams (i i' : io_info) : Prop :=
  operand_list_typer i = operand_list_typer i' /\ implicit_input i = implicit_input i' /\ implicit_output i = implicit_output i'.
