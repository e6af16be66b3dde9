(** * Concatenation for any command, and pairs of lines without auxiliary results (C68, C69) *)
Require Import Verif.PyBase Verif.JsonData Verif.Parser Verif.Access Verif.IOInfo Verif.IOVars
  Verif.Transformers Verif.ParaTypes Verif.ParaGen Verif.MapperAgg Verif.SpecPara Verif.SpecSem Verif.SpecSem4.

(** What the invocation prints for an input depends on its parts only, at ends of lines:
    whatever is drawn, the outputs for the parts follow each other. *)
Definition piecewise (B : behaviour) (c : civ) (i : Z) (Q : string -> Prop) : Prop :=
  forall s seed seed1 seed2 a b, ends_line a -> Q (a +++ b) ->
    run B seed c (put i (a +++ b) s) = run B seed1 c (put i a s) +++ run B seed2 c (put i b s).
(** Inputs of a kind: what is left of such an input after some lines is of this kind. *)
Definition tail_closed (Q : string -> Prop) : Prop := forall a b, ends_line a -> Q (a +++ b) -> Q b.
(** The commands that are ever offered the concatenation *)
Definition concat_commands : list string := ["col"; "custom_tr"; "cut"; "grep"; "sed"; "set_diff"; "tr"; "xargs"].

(** ** alt_bigrams_aux and alt_bigram_aux_reduce
    The first prints [f] of its input, the second [g] of its two inputs. *)
Definition prints (f : string -> string) (B : behaviour) : Prop :=
  forall seed ops x, B seed "alt_bigrams_aux" [] ops [x] = f x.
Definition reduces (g : string -> string -> string) (B : behaviour) : Prop :=
  forall seed ops x y, B seed "alt_bigram_aux_reduce" [] ops [x; y] = g x y.
(** [F], a text about pairs of adjacent lines, tells two single pairs apart. *)
Definition tells (F : list string -> string) : Prop :=
  exists x y x' y', Forall (fun l => has_char newline l = false) [x; y; x'; y'] /\
    F [x +++ tab +++ y] <> F [x' +++ tab +++ y'].
