(** * What the class stateless promises (C90)
    old_annotations/README.md: stateless commands "operate on individual line elements of their input, without
    maintaining state across invocations"; they "can be expressed as a purely functional map or filter", "may
    produce multiple elements" but "always return empty output for empty input".  "They do not require any
    synchronization to maintain correctness, nor caution about where to split inputs." *)
Require Import Verif.PyBase Verif.JsonData Verif.Parser Verif.Access Verif.IOInfo Verif.IOVars
  Verif.Transformers Verif.ParaTypes Verif.ParaGen Verif.MapperAgg Verif.SpecLists Verif.SpecPara Verif.SpecVars Verif.SpecSem Verif.SpecSem4 Verif.SpecCustom.

(** The output is made of what is printed for each line (with its newline, if it has one); this may depend on
    the flags, operands and configuration files. *)
Definition line_by_line (B : behaviour) (c : civ) (i : Z) : Prop :=
  exists g : store -> string -> string, forall s sd x, run B sd c (put i x s) = joined (map (g s) (full_lines x)).
(** The same for single characters *)
Definition char_by_char (B : behaviour) (c : civ) (i : Z) : Prop :=
  exists g : store -> ascii -> string, forall s sd x, run B sd c (put i x s) = joined (map (g s) (list_ascii_of_string x)).
(** Plans whose parts are cut anywhere, not only at ends of lines *)
Definition ok_anywhere (B : behaviour) (dir : data_dir) (p : parallelizer) (c : civ) (i : Z) : Prop :=
  forall s t seed, fresh_plan c t -> arity (fun n => n <> 0) t -> s i = joined (map s (parts t)) -> evaluates B dir p c s t (run B seed c s).

(** tac, rev (GNU, without flags and operands): lines in reverse order, each line reversed but for its newline *)
Definition is_tac (B : behaviour) : Prop := forall seed x, B seed "tac" [] [] [x] = joined (rev (full_lines x)).
Fixpoint reversed (s : string) : string := match s with "" => "" | String a s' => reversed s' +++ String a "" end.
Definition reversed_line (l : string) : string :=
  joined (map reversed (lines l)) +++ (if has_char newline l then String newline "" else "").
Definition is_rev (B : behaviour) : Prop := forall seed x, B seed "rev" [] [] [x] = joined (map reversed_line (full_lines x)).
(** A command line that prints its two inputs in reverse order *)
Definition joins_backwards (B : behaviour) (agg : invocation) : Prop := forall seed x y, aggregated B agg seed [x; y] = y +++ x.
