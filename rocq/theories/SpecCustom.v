(** * Aggregators given by a command line, for any command; what the guide promises for wc and cat (C89)
    docs/adding-annotations.md: "wc can process chunks independently, and would then sum up the results.
    cat with no flags is stateless, so the default options work." *)
Require Import Verif.PyBase Verif.JsonData Verif.Parser Verif.Access Verif.IOInfo Verif.IOVars
  Verif.Transformers Verif.ParaTypes Verif.ParaGen Verif.MapperAgg Verif.SpecLists Verif.SpecPara Verif.SpecVars Verif.SpecMapper Verif.SpecSem Verif.SpecSem4.

(** The parallelizer that runs the command itself on chunks and joins the results with a command line *)
Definition custom_chunks (k : agg_kind) (text : string) : parallelizer :=
  mkPar CONSEC_CHUNKS seq_mapper (AggString k text true) NO_ADD_INPUT 0.
(** Numbers of results that are joined at a time *)
Definition takes_many (k : agg_kind) (n : nat) : Prop := n <> 0 /\ (k = CUSTOM_2_ARY -> n = 2).
(** What the command line prints for the results, which are its operands.  Its own operands are ignored (C47_operands_dropped). *)
Definition aggregated (B : behaviour) (agg : invocation) (seed : nat) (outs : list string) : string :=
  B seed (cmd_name agg) (map (fun fo => WFlag (fo_name fo)) (flag_option_list agg)) (map (fun _ => WStream STREAM_INPUT) outs) outs.
(** The command line computes the output for a text from the outputs for its parts; chance plays no role. *)
Definition combines (B : behaviour) (agg : invocation) (k : agg_kind) (c : civ) (i : Z) (Q : string -> Prop) : Prop :=
  (forall s sd sd' x, Q x -> run B sd c (put i x s) = run B sd' c (put i x s)) /\
  (forall s sd sd' pieces, takes_many k (length pieces) -> Forall ends_line (removelast pieces) -> Q (joined pieces) ->
    run B sd c (put i (joined pieces) s) = aggregated B agg sd' (map (fun x => run B sd c (put i x s)) pieces)).
(** Kinds of inputs that parts share with the whole *)
Definition part_closed (Q : string -> Prop) : Prop := forall a b, ends_line a -> Q (a +++ b) -> Q a /\ Q b.

(** ** wc
    After the GNU manual.  How many characters a line has and how wide it is depend on the locale.  The
    numbers of standard input are printed in this order, how does not depend on the input (this is so unless
    it is a regular file); the name of an operand would be printed after them. *)
Record wc_oracle : Type := mkWc
  { wc_chars : string -> nat; wc_width : string -> nat; wc_show : list nat -> string; wc_read : string -> list nat }.
Definition white (a : ascii) : bool :=
  existsb (Ascii.eqb a) [" "%char; ascii_of_nat 9; newline; ascii_of_nat 11; ascii_of_nat 12; ascii_of_nat 13].
Fixpoint count_char (a : ascii) (s : string) : nat :=
  match s with "" => 0 | String b s' => (if Ascii.eqb b a then 1 else 0) + count_char a s' end.
(** [inside]: the character before belongs to a word. *)
Fixpoint count_words (inside : bool) (s : string) : nat :=
  match s with
  | "" => 0
  | String b s' => if white b then count_words false s' else (if inside then 0 else 1) + count_words true s'
  end.
Definition total (l : list nat) : nat := fold_right Nat.add 0 l.
Definition largest (l : list nat) : nat := fold_right Nat.max 0 l.
Definition wc_columns : list string := ["-l"; "-w"; "-m"; "-c"; "-L"].
Definition wc_number (o : wc_oracle) (x : string) (name : string) : nat :=
  match name with
  | "-l" => count_char newline x
  | "-w" => count_words false x
  | "-m" => total (map (wc_chars o) (lines x)) + count_char newline x
  | "-c" => String.length x
  | _ => largest (map (wc_width o) (lines x))
  end.
(** Without any of these flags: lines, words and bytes *)
Definition wc_asked (fl : list wflag) : list string :=
  if given fl wc_columns then filter (fun n => given fl [n]) wc_columns else ["-l"; "-w"; "-c"].
Definition is_wc (o : wc_oracle) (B : behaviour) : Prop :=
  (forall l, wc_read o (wc_show o l) = l) /\
  forall seed fl x, known wc_columns fl -> B seed "wc" fl [] [x] = wc_show o (map (wc_number o x) (wc_asked fl)).
(** The command line adds up the numbers of two results column by column, *)
Definition column_wise (f : list (nat -> nat -> nat)) (l l' : list nat) : list nat :=
  map (fun e => fst e (fst (snd e)) (snd (snd e))) (combine f (combine l l')).
Definition adds_up (o : wc_oracle) (B : behaviour) (agg : invocation) : Prop :=
  forall seed x y, aggregated B agg seed [x; y] = wc_show o (column_wise (map (fun _ => Nat.add) (wc_read o x)) (wc_read o x) (wc_read o y)).
(** or adds them up but takes the larger one in the columns of -L *)
Definition adds_up_but_L (o : wc_oracle) (B : behaviour) (agg : invocation) (fl : list wflag) : Prop :=
  forall seed x y, aggregated B agg seed [x; y] =
    wc_show o (column_wise (map (fun n => if String.eqb n "-L" then Nat.max else Nat.add) (wc_asked fl)) (wc_read o x) (wc_read o y)).

(** ** cat with flags
    Lines with their newlines.  -n numbers them, -b only those that are not empty and overrides -n, -s drops
    empty lines after an empty line; the other flags change single lines. *)
Fixpoint full_lines (s : string) : list string :=
  match s with
  | "" => []
  | String a s' =>
      if Ascii.eqb a newline then String a "" :: full_lines s'
      else match full_lines s' with [] => [String a ""] | r :: rs => String a r :: rs end
  end.
Record cat_oracle : Type := mkCat { cat_line : list wflag -> string -> string; cat_number : nat -> string }.
Definition empty_line (l : string) : bool := String.eqb l (String newline "").
Fixpoint drop_empty_lines (after_empty : bool) (l : list string) : list string :=
  match l with
  | [] => []
  | x :: l' => if empty_line x && after_empty then drop_empty_lines true l' else x :: drop_empty_lines (empty_line x) l'
  end.
Fixpoint numbered (o : cat_oracle) (fl : list wflag) (n : nat) (l : list string) : string :=
  match l with
  | [] => ""
  | x :: l' =>
      if given fl ["-n"; "-b"] && negb (given fl ["-b"] && empty_line x)
      then cat_number o n +++ cat_line o fl x +++ numbered o fl (S n) l'
      else cat_line o fl x +++ numbered o fl n l'
  end.
Definition cat_names : list string := ["-A"; "-b"; "-e"; "-E"; "-n"; "-s"; "-t"; "-T"; "-u"; "-v"].
Definition is_cat_with_flags (o : cat_oracle) (B : behaviour) : Prop :=
  (forall fl, cat_line o fl (String newline "") <> "") /\ (cat_number o 1 <> cat_number o 2) /\
  forall seed fl ops x, known cat_names fl ->
    B seed "cat" fl ops [x] = numbered o fl 1 (if given fl ["-s"] then drop_empty_lines false (full_lines x) else full_lines x).
