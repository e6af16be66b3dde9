(** * Model of annotation_generation/datatypes/parallelizability/TransformerFlagOptionList.py
    and of util.py *)
Require Import Verif.PyBase Verif.IOInfo Verif.IOVars.

(** util.py:6-11 *)
Definition foldl {A B} (func : A -> B -> B) : B -> list A -> B :=
  fix loop (acc : B) (l : list A) : B :=
    match l with
    | [] => acc
    | el :: l' => loop (func el acc) l'
    end.

(** util.py:14-18, for elements compared with [eqb]: [item in list] is true iff some
    element of the list equals the item. *)
Fixpoint dedup_loop {A} (eqb : A -> A -> bool) (acc l : list A) : list A :=
  match l with
  | [] => acc
  | x :: l' => dedup_loop eqb (if existsb (fun y => eqb y x) acc then acc else acc ++ [x]) l'
  end.
Definition list_deduplication {A} (eqb : A -> A -> bool) (l : list A) : list A := dedup_loop eqb [] l.

(** [==] of list elements.  [Flag] and [OptionWithIO] compare class and attributes
    (util_standard.py:11-14); [OptionWithIOVar] has no [__eq__], so only the same object is
    equal.  Simplification: no [OptionWithIOVar] object is shared between an invocation and
    a transformer, so two of them are never equal. *)
Definition std_eqb (a b : std) : bool :=
  match a, b with STDIN, STDIN | STDOUT, STDOUT | STDERR, STDERR => true | _, _ => false end.
Definition fs_eqb (a b : file_or_std) : bool :=
  match a, b with
  | FileName s, FileName t => String.eqb s t
  | StdDescriptor x, StdDescriptor y => std_eqb x y
  | _, _ => false
  end.
Definition pyval_eqb (a b : pyval) : bool :=
  match a, b with
  | PNone, PNone => true
  | PVar v, PVar w => Z.eqb v w
  | PArg s, PArg t => String.eqb s t
  | PRes r, PRes q => fs_eqb (res_el r) (res_el q) && Access.access_eqb (res_access r) (res_access q)
  | _, _ => false
  end.
Definition fe_eqb (a b : flag_el) : bool :=
  match a, b with
  | FFlag n, FFlag m => String.eqb n m
  | FOptIO n x, FOptIO m y => String.eqb n m && pyval_eqb x y
  | _, _ => false
  end.

(** The classes, TransformerFlagOptionList.py:56-119, 143-146 *)
Inductive transformer : Type :=
| TSeq
| TAdd (list_to_add : list flag_el)
| TRemove (list_to_remove : list string)
| TFilter (list_filter : list string)
| TEmpty
| TCustom (list_custom : list flag_el)
| TChain (list_transformers : list transformer).

(** [get_flag_option_list_after_transformer_application], TransformerFlagOptionList.py:61-64,
    71-77, 84-88, 95-99, 106-109, 116-119, 148-151, and
    [apply_individual_transformer_flagoption_list], 49-52. *)
Fixpoint transform (t : transformer) (original : list flag_el) : list flag_el :=
  match t with
  | TSeq => original
  | TAdd l => original ++ filter (fun x => negb (existsb (fun y => fe_eqb y x) original)) l
  | TRemove names => filter (fun x => negb (mem (fe_name x) names)) original
  | TFilter names => filter (fun x => mem (fe_name x) names) original
  | TEmpty => []
  | TCustom l => l
  | TChain ts => foldl transform original ts
  end.

(** TransformerFlagOptionList.py:42-47 *)
Definition transformer_or_seq (t : option transformer) : transformer :=
  match t with None => TSeq | Some t => t end.
(** TransformerFlagOptionList.py:35-40 *)
Definition transformer_or_empty (t : option transformer) : transformer :=
  match t with None => TEmpty | Some t => t end.
