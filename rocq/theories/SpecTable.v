(** * The table of reductions (C92)
    old_annotations/p_stats/mr.md lists, for some commands, a "Reduction g": the output for a text is g of the
    outputs for its two parts.
<<
    tr         a ++ b
    tr -s      (init a) ++ (tr -s (last a) ++ (head b)) ++ (tail b)
    nl         a ++ map (\e -> ( (last unzip a) + (fst e)), snd e) ) b
    cat        a ++ b
    rev        b ++ a
    uniq -c    a + b
    uniq       (init a) ++ (uniq (last a) ++ (head b)) ++ (tail b)
    uniq -d    (init a) ++ (uniq -d (last a) ++ (head b)) ++ (tail b)
    wc         ( ((fst a) + (fst b)), ((med a) + (med b)), ((lst a) + (lst b)) )
    sort       sort -m a b
    sort -h    a
>>
    join, which reads two files, is in SpecJoin.v. *)
Require Import Verif.PyBase Verif.JsonData Verif.Parser Verif.Access Verif.IOInfo Verif.IOVars
  Verif.Transformers Verif.ParaTypes Verif.ParaGen Verif.MapperAgg Verif.SpecLists Verif.SpecPara Verif.SpecVars Verif.SpecSem Verif.SpecSem3
  Verif.SpecSem4 Verif.SpecSem10 Verif.SpecSem11 Verif.SpecCustom.

(** A reduction; it may depend on what the words of the command line stand for (by_words). *)
Definition reduction : Type := store -> string -> string -> string.
Definition by_words (c : civ) (g : reduction) : Prop := forall s s',
  map (wflag_of c s) (v_flags c) = map (wflag_of c s') (v_flags c) -> map (word_of c s) (v_ops c) = map (word_of c s') (v_ops c) -> forall x y, g s x y = g s' x y.
(** The output for a text is [g] of the outputs for its parts, wherever the text is cut after a line. *)
Definition row_right (B : behaviour) (c : civ) (i : Z) (g : reduction) : Prop :=
  forall s sd x y, ends_line x -> run B sd c (put i (x +++ y) s) = g s (run B sd c (put i x s)) (run B sd c (put i y s)).
(** Plans that run the command on chunks and combine the results with [g], from left to right *)
Definition in_chunks (k : agg_spec) : parallelizer := mkPar CONSEC_CHUNKS seq_mapper k NO_ADD_INPUT 0.
Definition reduced_ok (B : behaviour) (p : parallelizer) (c : civ) (i : Z) (g : reduction) : Prop :=
  forall s t seed, fresh_plan c t -> arity (fun n => n <> 0) t -> distributes (p_splitter p) (s i) (map s (parts t)) ->
    pairs_evaluates B p c s (g s) t (run B seed c s).

(** ** The entries *)
Definition g_append : reduction := fun _ a b => a +++ b.
Definition g_backwards : reduction := fun _ a b => b +++ a.
Definition g_first : reduction := fun _ a _ => a.
(** (init a) ++ (f (last a) ++ (head b)) ++ (tail b), for lines, with the command itself for f.  If a or b is
    empty then the other one. *)
Definition g_again (B : behaviour) (sd : nat) (c : civ) (i : Z) : reduction := fun s =>
  adjacent_lines (one_stream (fun x => run B sd c (put i x s))).
(** The sum for uniq -c: the numbers of the last line of a and the first line of b are added up if these lines
    count as equal. *)
Definition g_counts (o : uniq_oracle) (c : civ) : reduction := fun s =>
  adjacent_lines (one_stream (count_merge (uniq_same o (map (wflag_of c s) (v_flags c))))).
(** Adding up numbers that are printed in columns *)
Definition g_sum (o : wc_oracle) : reduction := fun _ a b =>
  wc_show o (column_wise (map (fun _ => Nat.add) (wc_read o a)) (wc_read o a) (wc_read o b)).
(** sort -m with the flags of the command *)
Definition g_merge (B : behaviour) (sd : nat) (c : civ) : reduction := fun s a b =>
  B sd "sort" (map (wflag_of c s) (v_flags c) ++ [WFlag "-m"]) [WStream STREAM_INPUT; WStream STREAM_INPUT] [a; b].

(** ** nl (GNU, without flags)
    Lines that are not empty are numbered in the body of a page.  The lines [\:\:\:], [\:\:] and [\:] start a
    header, a body and a footer; they are replaced by empty lines and numbers start again.  An entry is a
    number, if there is one, and a line. *)
Inductive nl_section : Type := Header | Body | Footer.
Definition nl_delimiter (l : string) : option nl_section :=
  match l with "\:\:\:" => Some Header | "\:\:" => Some Body | "\:" => Some Footer | _ => None end.
Fixpoint nl_entries (sec : nl_section) (n : nat) (ls : list string) : list (option nat * string) :=
  match ls with
  | [] => []
  | l :: ls' =>
      match nl_delimiter l with
      | Some sec' => (None, "") :: nl_entries sec' 1 ls'
      | None =>
          match sec, l with
          | Body, String _ _ => (Some n, l) :: nl_entries sec (S n) ls'
          | _, _ => (None, l) :: nl_entries sec n ls'
          end
      end
  end.
Definition nl (x : string) : list (option nat * string) := nl_entries Body 1 (lines x).
(** The last number that is printed, 0 if there is none *)
Fixpoint last_number_of (l : list (option nat * string)) : nat :=
  match l with
  | [] => 0
  | (Some n, _) :: l' => match last_number_of l' with 0 => n | m => m end
  | (None, _) :: l' => last_number_of l'
  end.
Definition g_numbers (a b : list (option nat * string)) : list (option nat * string) :=
  a ++ map (fun e => (option_map (Nat.add (last_number_of a)) (fst e), snd e)) b.
